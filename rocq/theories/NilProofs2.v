(** * Calls on datasets with a nil map, and the locks of their wrappers (C100). *)
From Verif Require Import GoBase GoStrings LangModel DatasetModel DatasetSpec DatasetProofs2 DatasetProofs3 DatasetProofs4 DatasetProofs6 TemplateModel NilModel NilSpec NilProofs.

Lemma passes_at h l ws x : passes h l ws x -> exists m, h !! x = Some (ODs m).
Proof. induction 1; [by eexists|done]. Qed.
Lemma passes_det h l ws x ws' x' : passes h l ws x -> passes h l ws' x' -> ws = ws' /\ x = x'.
Proof.
  intros H. revert ws' x'. induction H as [x m Hx|l d ws x Hl _ IH]; intros ws' x' H'; inversion H'; subst; try congruence; [done|].
  match goal with G : h !! l = Some (OTs (Some ?e)), P : passes h ?e _ _ |- _ => rewrite Hl in G; injection G as <-; destruct (IH _ _ P) as [-> ->] end. done.
Qed.
Lemma passes_change h x m m' l ws y : h !! x = Some (ODs m) -> passes h l ws y <-> passes (<[x := ODs m']> h) l ws y.
Proof.
  intros Hx. split.
  - induction 1 as [y my Hy|l d ws y Hl _ IH].
    + destruct (decide (x = y)) as [->|]; [eapply ps_here; apply lookup_insert|eapply ps_here; by rewrite lookup_insert_ne].
    + eapply ps_wrapper; [|exact IH]. rewrite lookup_insert_ne; [done|]. intros ->. congruence.
  - induction 1 as [y my Hy|l d ws y Hl _ IH].
    + destruct (decide (x = y)) as [->|]; [by eapply ps_here|]. rewrite lookup_insert_ne in Hy by done. by eapply ps_here.
    + destruct (decide (x = l)) as [->|]; [by rewrite lookup_insert in Hl|]. rewrite lookup_insert_ne in Hl by done. by eapply ps_wrapper.
Qed.
Lemma effect_passes N h x m c h' a l ws y : h !! x = Some (ODs m) -> effect N h x m c h' a -> passes h l ws y <-> passes h' l ws y.
Proof. intros Hx He. destruct c; simpl in He; [destruct He as [(_ & -> & _)|(_ & -> & _)]; [done|]|destruct He as [-> _]|destruct He as [-> _]; done]; by eapply passes_change. Qed.
Lemma effect_nil N h x m c h' a : h !! x = Some (ODs m) -> nil_maps N h -> effect N h x m c h' a -> nil_maps N h'.
Proof.
  intros Hx Hn He y Hy. destruct c; simpl in He; [destruct He as [(_ & -> & _)|(Hx' & -> & _)]; [by apply Hn|]|destruct He as [-> _]|destruct He as [-> _]; by apply Hn].
  - rewrite lookup_insert_ne by (by intros ->). by apply Hn.
  - destruct (decide (x = y)) as [->|]; [|rewrite lookup_insert_ne by done; by apply Hn]. rewrite (Hn y Hy) in Hx. injection Hx as <-. by rewrite lookup_insert, delete_empty.
Qed.
(** One call. *)
Theorem perform_spec N h l ws x m : passes h l ws x -> h !! x = Some (ODs m) -> forall n K c h' K' a, perform N n h K l c = Some (h', K', a) ->
  (a = ABlocks /\ h' = h /\ K' = K /\ exists w, w ∈ ws /\ w ∈ K) \/
  ((forall w, w ∈ ws -> w ∉ K) /\ effect N h x m c h' a /\
   forall w, w ∈ K' <-> w ∈ K \/ (w ∈ ws /\ a = APanic)).
Proof.
  intros Hp Hm. induction Hp as [x m' Hx|l d ws x Hl Hp IH]; intros n K c h' K' a H; (destruct n as [|n]; [done|]); cbn [perform] in H.
  - rewrite Hm in H. right. split; [intros w Hw; by apply elem_of_nil in Hw|]. destruct c; simpl; [destruct (decide (x ∈ N)); [|]| |]; injection H as <- <- <-.
    all: (split; [naive_solver|]); intros w; rewrite elem_of_nil; naive_solver.
  - rewrite Hl in H. destruct (decide (l ∈ K)) as [Hk|Hk].
    + injection H as <- <- <-. left. split_and!; try done. exists l. split; [by left|done].
    + destruct (perform N n h K d c) as [[[h1 K1] a1]|] eqn:E; [|done]. injection H as <- <- <-.
      destruct (IH Hm _ _ _ _ _ _ E) as [(-> & -> & -> & w & Hw & HwK)|(Hf & He & HK)].
      * left. split_and!; try done. exists w. split; [by right|done].
      * right. split; [intros w [->|Hw]%elem_of_cons; [done|by apply Hf]|]. split; [done|]. intros w.
        assert (a1 = APanic -> reading c = false) as Hr by (intros ->; by destruct c; simpl in He; [..|destruct He]).
        rewrite elem_of_cons. destruct a1; try (rewrite HK; naive_solver). rewrite (Hr eq_refl). rewrite elem_of_union, elem_of_singleton, HK. naive_solver.
Qed.
Lemma perform_enough N h l ws x : passes h l ws x -> forall n K c, (length ws < n)%nat -> is_Some (perform N n h K l c).
Proof.
  induction 1 as [x m Hx|l d ws x Hl Hp IH]; intros n K c Hn; (destruct n as [|n]; [simpl in Hn; lia|]); cbn [perform].
  - rewrite Hx. by eexists.
  - rewrite Hl. destruct (decide (l ∈ K)); [by eexists|]. destruct (IH n K c) as [[[h1 K1] a1] ->]; [simpl in Hn; lia|]. by eexists.
Qed.
Lemma perform_hollow N h l ws : hollow h l ws -> forall n K c, (length ws <= n)%nat -> exists K' a, perform N n h K l c = Some (h, K', a) /\
  ((a = ABlocks /\ K' = K /\ exists w, w ∈ ws /\ w ∈ K) \/
   (a = APanic /\ (forall w, w ∈ ws -> w ∉ K) /\ forall w, w ∈ K' <-> w ∈ K \/ (w ∈ ws /\ forall k, c <> CGet k))).
Proof.
  assert (Hr : forall c, (reading c = true /\ exists k, c = CGet k) \/ (reading c = false /\ forall k, c <> CGet k)) by (intros []; simpl; eauto).
  induction 1 as [l Hl|l d ws Hl Hp IH]; intros n K c Hn; (destruct n as [|n]; [simpl in Hn; lia|]); cbn [perform]; rewrite Hl; (destruct (decide (l ∈ K)) as [Hk|Hk];
    [exists K, ABlocks; split; [done|]; left; split; [done|]; split; [done|]; exists l; split; [by left|done]|]).
  - eexists _, APanic. split; [done|]. right. split; [done|]. split; [intros w ->%elem_of_list_singleton; done|]. intros w. rewrite elem_of_list_singleton.
    destruct (Hr c) as [[-> [k ->]]|[-> Hc]]; [naive_solver|]. rewrite elem_of_union, elem_of_singleton. naive_solver.
  - destruct (IH n K c) as (K1 & a & -> & H); [simpl in Hn; lia|]. destruct H as [(-> & -> & w & Hw & HwK)|(-> & Hf & HK)].
    + eexists _, ABlocks. split; [done|]. left. split; [done|]. split; [done|]. exists w. split; [by right|done].
    + eexists _, APanic. split; [done|]. right. split; [done|]. split; [intros w [->|Hw]%elem_of_cons; [done|by apply Hf]|]. intros w. rewrite elem_of_cons.
      destruct (Hr c) as [[-> [k ->]]|[-> Hc]]; [rewrite HK; naive_solver|]. rewrite elem_of_union, elem_of_singleton, HK. naive_solver.
Qed.

(** ** Histories *)
Definition waits_for (K : gset loc) (N : gset loc) (h : heap) (cs : list (loc * call)) (i : nat) : Prop :=
  exists l c ws x w, cs !! i = Some (l, c) /\ passes h l ws x /\ w ∈ ws /\ (w ∈ K \/ exists j ws', (j < i)%nat /\ nil_store N h cs j ws' /\ w ∈ ws').
Lemma nil_store_cons N h e cs i ws : nil_store N h (e :: cs) (S i) ws <-> nil_store N h cs i ws.
Proof. done. Qed.
Lemma history_from N n cs : forall h K h' K' r, nil_maps N h -> (forall l c, (l, c) ∈ cs -> exists ws x, passes h l ws x) ->
  perform_all N n h K cs = Some (h', K', r) ->
  nil_maps N h' /\ (length r <= length cs)%nat /\ (length r < length cs -> last r = Some ABlocks)%nat /\
  (forall i, (i < length r)%nat -> (r !! i = Some ABlocks <-> waits_for K N h cs i) /\
     (r !! i = Some APanic <-> ~ waits_for K N h cs i /\ exists ws, nil_store N h cs i ws)).
Proof.
  induction cs as [|[l c] cs IH]; intros h K h' K' r Hn Hp H; cbn [perform_all] in H.
  - injection H as <- <- <-. split_and!; [done|simpl; lia|simpl; lia|simpl; lia].
  - destruct (Hp l c) as (ws & x & Hx); [by left|]. destruct (passes_at _ _ _ _ Hx) as [m Hm].
    destruct (perform N n h K l c) as [[[h1 K1] a]|] eqn:E; [|done].
    assert (H0 : waits_for K N h ((l, c) :: cs) 0 <-> exists w, w ∈ ws /\ w ∈ K).
    { split.
      - intros (l' & c' & ws' & x' & w & [= <- <-] & Hx' & Hw & [Hk|(j & _ & ? & _)]); [|lia]. destruct (passes_det _ _ _ _ _ _ Hx Hx') as [-> ->]. by exists w.
      - intros (w & Hw & Hk). exists l, c, ws, x, w. split_and!; try done. by left. }
    assert (Hns : forall ws', nil_store N h ((l, c) :: cs) 0 ws' <-> ws' = ws /\ x ∈ N /\ exists k v, c = CSet k v).
    { intros ws'. split.
      - intros (l' & k & v & x' & [= <- ->] & Hx' & HxN). destruct (passes_det _ _ _ _ _ _ Hx Hx') as [-> ->]. split_and!; eauto.
      - intros (-> & HxN & k & v & ->). by exists l, k, v, x. }
    destruct (perform_spec N h l ws x m Hx Hm _ _ _ _ _ _ E) as [(-> & -> & -> & w & Hw & HwK)|(Hf & He & HK)].
    + injection H as <- <- <-. split_and!; [done|simpl; lia|done|]. intros [|i] Hi; [|simpl in Hi; lia]. simpl. rewrite H0. split; [split; [eauto|done]|].
      split; [done|]. intros [Hw' _]. destruct Hw'. by exists w.
    + assert (Hnb : a <> ABlocks). { destruct c; simpl in He; destruct_and?; [destruct He as [(_ & _ & ->)|(_ & _ & ->)]| |]; naive_solver. }
      assert (exists h2 K2 r2, perform_all N n h1 K1 cs = Some (h2, K2, r2) /\ r = a :: r2 /\ h' = h2) as (h2 & K2 & r2 & E2 & -> & ->).
      { destruct a; try done; destruct (perform_all N n h1 K1 cs) as [[[h2 K2] r2]|]; try done; injection H as <- <- <-; eauto 10. }
      assert (Hps : forall l ws y, passes h l ws y <-> passes h1 l ws y) by (intros; by eapply effect_passes).
      destruct (IH h1 K1 h2 K2 r2) as (G1 & G2 & G3 & G4); [by eapply effect_nil| |done|].
      { intros l' c' Hin. destruct (Hp l' c') as (ws' & x' & Hx'); [by right|]. exists ws', x'. by apply Hps. }
      assert (Hap : a = APanic <-> x ∈ N /\ exists k v, c = CSet k v) by (destruct c; simpl in He; naive_solver).
      assert (Hst : forall i ws', nil_store N h1 cs i ws' <-> nil_store N h cs i ws').
      { intros i ws'. unfold nil_store. by setoid_rewrite <- Hps. }
      assert (Hwt : forall i, waits_for K1 N h1 cs i <-> waits_for K N h ((l, c) :: cs) (S i)).
      { intros i. split.
        - intros (l' & c' & ws' & x' & w & Hi & Hx' & Hw & Hor). exists l', c', ws', x', w. split_and!; [done|by apply Hps|done|].
          destruct Hor as [[Hk|[Hk Ha]]%HK|(j & ws2 & Hj & Hs & Hw2)]; [by left| |].
          + right. exists 0%nat, ws. split_and!; [lia| |done]. apply Hns. split; [done|]. by apply Hap.
          + right. exists (S j), ws2. split_and!; [lia| |done]. apply nil_store_cons. by apply Hst.
        - intros (l' & c' & ws' & x' & w & Hi & Hx' & Hw & Hor). exists l', c', ws', x', w. split_and!; [done|by apply Hps|done|].
          destruct Hor as [Hk|([|j] & ws2 & Hj & Hs & Hw2)]; [left; apply HK; by left| |].
          + left. apply HK. right. apply Hns in Hs as (-> & Hs). split; [done|by apply Hap].
          + right. exists j, ws2. split_and!; [lia| |done]. by apply Hst. }
      split_and!; [done|simpl; lia| |].
      * simpl. intros Hlt. rewrite last_cons, G3 by lia. done.
      * intros [|i] Hi; simpl.
        -- rewrite H0. split; [split; [intros [= ->]; done|intros (w & Hw & Hk); by destruct (Hf w Hw)]|]. split.
           ++ intros [= Ha]. split; [intros (w & Hw & Hk); by destruct (Hf w Hw)|]. exists ws. apply Hns. split; [done|]. by apply Hap.
           ++ intros [_ (ws' & Hs)]. apply Hns in Hs as (_ & Hs). f_equal. by apply Hap.
        -- simpl in Hi. destruct (G4 i) as [J1 J2]; [lia|]. rewrite J1, J2, Hwt. split; [done|]. by setoid_rewrite Hst.
Qed.
Theorem history N n h cs h' K' r : nil_maps N h -> (forall l c, (l, c) ∈ cs -> exists ws x, passes h l ws x) ->
  perform_all N n h ∅ cs = Some (h', K', r) ->
  nil_maps N h' /\ (length r <= length cs)%nat /\ (length r < length cs -> last r = Some ABlocks)%nat /\
  (forall i, (i < length r)%nat -> (r !! i = Some ABlocks <-> waits N h cs i) /\
     (r !! i = Some APanic <-> ~ waits N h cs i /\ exists ws, nil_store N h cs i ws)).
Proof.
  intros Hn Hp H. destruct (history_from N n cs h ∅ h' K' r Hn Hp H) as (G1 & G2 & G3 & G4).
  assert (Hw : forall i, waits_for ∅ N h cs i <-> waits N h cs i).
  { intros i. split.
    - intros (l & c & ws & x & w & Hi & Hx & Hw & [Hk|(j & ws' & Hj & Hs & Hw')]); [by apply elem_of_empty in Hk|]. by exists l, c, ws, x, j, ws', w.
    - intros (l & c & ws & x & j & ws' & w & Hi & Hx & Hj & Hs & Hw & Hw'). exists l, c, ws, x, w. split_and!; try done. right. by exists j, ws'. }
  split_and!; [done..|]. intros i Hi. rewrite <- !Hw. by apply G4.
Qed.
(** ** A clone has no nil map *)
Theorem clone_made ord n h l h' l' N x : order_ok ord -> complete h l -> clone ord n h l = Ok (h', l') -> nil_maps N h -> reach h' l' x -> x ∉ N.
Proof. intros Ho Hc He Hn Hr Hx. destruct (clone_deep _ _ _ _ _ _ Ho Hc He) as (_ & Hf & _). destruct (Hf x Hr) as [Hx' _]. rewrite (Hn x Hx) in Hx'. done. Qed.
