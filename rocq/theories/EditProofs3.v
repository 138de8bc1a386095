(** * Goroutines that load, extend, clone, look up and execute templates do not panic, continued (C118). *)
From Verif Require Import GoBase GoStrings GoStringsProofs Regex DatasetModel LangModel DatasetSpec DatasetProofs DatasetProofs2 DatasetProofs3 DatasetProofs5
  TemplateModel TemplateSpec TemplateProofs2 TemplateProofs3 TemplateProofs4 TemplateProofs5 TemplateProofs6
  RenderSpec RenderProofs RenderProofs2 RenderProofs3 RenderProofs4 RenderProofs5 RenderProofs6 RenderProofs7 CrashSpec CrashProofs CrashProofs2
  CopyModel EditModel EditSpec EditProofs2.

(** ** LoadString, AddTemplate *)
Lemma goes_add t name x K w : there w t -> pub w x -> goes (t_add t name x) K w (fun _ K' _ => K' = K).
Proof.
  intros Ht Hx. unfold t_add. apply goes_bind, goes_field; [done|]. intros w1 T L1 I1 HT. apply goes_bind.
  eapply (goes_weaken _ _ _ (fun _ K' w' => K' = K /\ grows w1 w' /\ exists T, w'.1 !! t = Some T /\ is_Some (t_subs T))).
  2:{ destruct (t_subs T) eqn:Es; [cbn; split; [done|]; split; [apply grows_refl|]; exists T; by rewrite Es|].
      apply goes_subs; [by exists T|intros n y Hn; by rewrite lookup_empty in Hn|]. intros w2 L2 I2 HT2. done. }
  intros [] K' w2 L2 (-> & G2 & T2 & HT2 & Hs2). apply goes_bind. assert (G : grows w w2) by (by eapply grows_trans). apply goes_father; [by eapply pub_grows|by eapply there_grows|].
  intros w3 L3 I3. apply goes_put; [eapply pub_grows; [|exact Hx]; by eapply grows_trans| |done].
  destruct (proj1 L3 t T2 HT2) as (T3 & HT3 & _ & H3 & _). exists T3. split; [done|]. by apply H3.
Qed.
Lemma goes_register t name x K w : there w t -> pub w x -> goes (t_register t name x) K w (fun _ K' _ => K' = K).
Proof.
  intros Ht Hx. unfold t_register. destruct (bool_decide _); [|by apply goes_add]. generalize (split_on "|"%char name) as l. intros l. revert w Ht Hx.
  induction l as [|v l IH]; intros w Ht Hx; [done|]. destruct v as [|c v]; [by apply IH|]. cbn [t_add_all]. apply goes_bind. eapply goes_weaken; [|by apply goes_add].
  intros [] K' w' L' ->. apply IH; [by eapply there_grows|by eapply pub_grows].
Qed.
Lemma goes_second k t : forall i s K w us, l_actual s :: l_uppers s = us ++ [t] -> Forall (pub w) us -> there w t ->
  goes (t_second_pass k i s) K w (fun _ K' _ => K' = K).
Proof.
  induction k as [|k IH]; intros i s K w us Hus Hp Ht; [done|]. cbn [t_second_pass]. unfold t_second_step. destruct (l_compiled s !! i) as [x|]; [|cbn [tbind]; by eapply IH].
  destruct (bool_decide (p_type x = MStart)).
  { apply goes_bind, goes_bind. apply goes_make; [done|done|]. intros w1 c L1 I1 Hc. cbn [goes]. eapply (IH _ _ _ _ (c :: us)); [cbn; by rewrite Hus|constructor; [done|by eapply pub_all]|by eapply there_grows]. }
  destruct (bool_decide (p_type x = MEnd)); [|cbn [tbind]; by eapply IH].
  destruct (l_starts s) as [|sp starts]; [done|]. destruct (l_uppers s) as [|up uppers]; [done|]. destruct us as [|a us]; [done|]. injection Hus as Ea Hus. rewrite Ea.
  apply Forall_cons in Hp as [Ha Hus']. apply goes_bind, goes_bind. apply goes_root; [by apply pub_there|]. intros w1 L1 I1.
  apply goes_bind. apply goes_field; [eapply there_grows; [done|by apply pub_there]|]. intros w2 T L2 I2 HT. assert (G2 : grows w w2) by (by eapply grows_trans).
  apply goes_bind. eapply goes_weaken; [|apply goes_register; [|by eapply pub_grows]].
  - intros [] K' w3 L3 ->. cbn [goes]. assert (G3 : grows w w3) by (by eapply grows_trans). eapply (IH _ _ _ _ us); [done|by eapply pub_all|by eapply there_grows].
  - eapply there_grows; [exact G2|]. destruct us as [|u us]; [by injection Hus as -> _|]. injection Hus as -> _. apply Forall_cons in Hus' as [Hu _]. by apply pub_there.
Qed.
Lemma goes_load t data K w : there w t -> goes (t_load t data) K w (fun _ K' _ => K' = K).
Proof.
  intros Ht. unfold t_load. apply goes_bind. eapply goes_weaken; [|by apply (goes_second _ t _ _ _ _ [])]. intros [s ok] K' w1 L1 ->. destruct ok; [|done]. destruct (l_starts s); [|done].
  apply goes_bind. apply goes_root; [by eapply there_grows|]. done.
Qed.

(** ** GetTemplate, Clone *)
Lemma goes_up t (next : loc -> tact (option loc)) K w (Phi : option loc -> gset loc -> world -> Prop) : there w t ->
  (forall w1, grows w w1 -> Phi None K w1) -> (forall w1 x, grows w w1 -> there w1 x -> goes (next x) K w1 Phi) -> goes (t_up t next) K w Phi.
Proof.
  intros Ht HN H. unfold t_up. apply goes_bind, goes_field; [done|]. intros w1 T L1 I1 HT. destruct (t_father T) as [f|] eqn:Ef; [|by apply HN].
  apply goes_bind, goes_field; [by exists T|]. intros w2 T2 L2 I2 HT2. destruct (proj1 L2 t T HT) as (T' & HT' & _ & _ & Hf). assert (T' = T2) as -> by congruence.
  destruct (t_father T2) as [g|] eqn:Eg; [|destruct Hf as [? Hf]; [by exists f|done]]. apply H; [by eapply grows_trans|]. by eapply (proj2 (proj2 I2)).
Qed.
Definition got (K : gset loc) (r : option loc) (K' : gset loc) (w : world) : Prop := K' = K /\ forall x, r = Some x -> pub w x.
Lemma goes_get n : forall t name K w, there w t -> goes (t_get n t name) K w (got K).
Proof.
  induction n as [|n IH]; intros t name K w Ht; [done|]. cbn [t_get]. apply goes_bind, goes_field; [done|]. intros w1 T L1 I1 HT.
  assert (Hup : forall w2, grows w1 w2 -> goes (t_up t (fun x => t_get n x name)) K w2 (got K)).
  { intros w2 L2. apply goes_up; [eapply there_grows; [exact L2|by exists T]|done|]. intros w3 x L3 Hx. by apply IH. }
  destruct (t_subs T) as [m|]; [|apply Hup, grows_refl]. apply goes_bind, goes_field; [by exists T|]. intros w2 T2 L2 I2 HT2.
  destruct (t_subs T2 ≫= _) as [x|] eqn:Ex; [|by apply Hup]. cbn. split; [done|]. intros y [= <-]. eapply (proj1 (proj2 I2) t T2 name x HT2). unfold subs_of. by destruct (t_subs T2).
Qed.
Lemma goes_names n t names K : forall w, there w t -> goes (t_names n t names) K w (got K).
Proof.
  induction names as [|v names IH]; intros w Ht; [done|]. cbn [t_names]. apply goes_bind. eapply goes_weaken; [|by apply goes_get].
  intros [x|] K' w1 L1 [-> Hx]; [done|]. apply IH. by eapply there_grows.
Qed.
Section Clone.
  Context (tord : theap -> gmap bytes loc -> list (bytes * loc)) (Hord : any_order tord).
  Definition cloned (K : gset loc) (c : loc) (K' : gset loc) (w : world) : Prop := K' = K /\ pub w c.
  Lemma goes_clone n : forall t K w, there w t -> goes (t_clone tord n t) K w (cloned K).
  Proof using Hord.
    induction n as [|n IH]; intros t K w Ht; [done|]. cbn [t_clone].
    apply goes_bind, goes_field; [done|]. intros w1 T1 L1 I1 HT1. apply goes_bind, goes_begin; [done|done|]. intros w2 c L2 I2 Hc2 HcK.
    assert (Ht2 : there w2 t) by (eapply there_grows; [exact L2|by exists T1]). apply goes_bind, goes_field; [done|]. intros w3 T3 L3 I3 HT3.
    assert (Hc3 : there w3 c) by (by eapply there_grows).
    apply goes_bind. eapply (goes_weaken _ _ _ (fun _ K' w' => K' = {[c]} ∪ K)).
    2:{ destruct (t_root T3) as [ps|] eqn:Er; [|done]. apply goes_bind, goes_field; [by exists T3|]. intros w4 T4 L4 I4 HT4.
        destruct (proj1 L4 t T3 HT3) as (T' & HT' & Hr & _). assert (T' = T4) as -> by congruence. destruct (t_root T4); [|destruct Hr as [? Hr]; [by rewrite Er|done]].
        apply goes_root; [by eapply there_grows|]. done. }
    intros [] K' w4 L4 ->. assert (Ht4 : there w4 t) by (eapply there_grows; [exact L4|by exists T3]). assert (Hc4 : there w4 c) by (by eapply there_grows).
    apply goes_bind, goes_field; [done|]. intros w5 T5 L5 I5 HT5. assert (Hc5 : there w5 c) by (by eapply there_grows).
    apply goes_bind. eapply (goes_weaken _ _ _ (fun _ K' w' => K' = {[c]} ∪ K)).
    2:{ destruct (t_subs T5) as [m5|] eqn:Es; [|done]. apply goes_bind. apply goes_read. intros w6 L6 I6. destruct (there_grows w5 w6 t L6) as [T6 HT6]; [by exists T5|]. rewrite HT6. cbn [goes].
        assert (Hc6 : there w6 c) by (by eapply there_grows).
        assert (Hl : Forall (pub w6) (match t_subs T6 with Some m => tord w6.1 m | None => [] end).*2).
        { destruct (t_subs T6) as [m|] eqn:Em; [|by constructor]. apply Forall_forall. intros x Hx. apply elem_of_list_fmap in Hx as ([k y] & -> & Hy). rewrite (Hord w6.1 m) in Hy.
          apply elem_of_map_to_list in Hy. eapply (proj1 (proj2 I6) t T6 k y HT6). unfold subs_of. by rewrite Em. }
        revert Hl Hc6. generalize (match t_subs T6 with Some m => tord w6.1 m | None => [] end) as l. intros l Hl Hc6.
        assert (Hm : forall k y, (∅ : gmap bytes loc) !! k = Some y -> pub w6 y) by (intros k y Hk; by rewrite lookup_empty in Hk).
        revert Hm. generalize (∅ : gmap bytes loc) as m0. clear HT6 T6 L6 I6. revert w6 Hl Hc6. induction l as [|[k x] l IHl]; intros w6 Hl Hc6 m0 Hm.
        - cbn [t_clone_subs tbind]. apply goes_subs; [done|exact Hm|]. done.
        - cbn in Hl. apply Forall_cons in Hl as [Hx Hl]. cbn [t_clone_subs]. apply goes_bind, goes_bind. eapply goes_weaken; [|apply IH; by apply pub_there].
          intros x' K' w7 L7 [-> Hx']. apply goes_bind. apply goes_father; [by eapply pub_grows|by eapply there_grows|]. intros w8 L8 I8.
          assert (G8 : grows w6 w8) by (by eapply grows_trans).
          specialize (IHl w8 (pub_all _ _ _ G8 Hl) (there_grows _ _ _ G8 Hc6) (<[k := x']> m0)).
          assert (Hm8 : forall k0 y, <[k := x']> m0 !! k0 = Some y -> pub w8 y).
          { intros k0 y. destruct (decide (k0 = k)) as [->|Hne]; [rewrite lookup_insert; intros [= <-]; exact (pub_grows _ _ _ L8 Hx')|rewrite lookup_insert_ne by done; intros H0; eapply pub_grows; [exact G8|]; by eapply Hm]. }
          specialize (IHl Hm8). revert IHl. generalize (t_clone_subs (t_clone tord n) l c (<[k := x']> m0)) as p. intros p.
          assert (Hb : forall (p : tact (gmap bytes loc)) K w (g : gmap bytes loc -> tact unit) Phi, goes (tbind p g) K w Phi -> goes p K w (fun a K' w' => goes (g a) K' w' Phi)).
          { clear. induction p as [a| | |f k IH]; intros K w g Phi H; [done..|]. cbn in *. intros w1 L1 I1 O1. destruct (H w1 L1 I1 O1) as (w2 & K2 & E & G & T & S & D1 & D2 & H2).
            exists w2, K2. repeat (split; [done|]). by apply IH. }
          apply Hb. }
    intros [] K' w6 L6 ->. assert (Ht6 : there w6 t) by (eapply there_grows; [exact L6|by exists T5]). assert (Hc6 : there w6 c) by (by eapply there_grows).
    apply goes_bind, goes_field; [done|]. intros w7 T7 L7 I7 HT7. apply goes_bind. apply goes_finish; [set_solver|intros y Hy; by eapply (proj2 (proj2 I7))|].
    intros w8 L8 I8 Hc8. cbn. split; [set_solver|done].
  Qed.
End Clone.

(** ** Execute *)
Section Execute.
  Context (F : golib) (ord : heap -> gmap bytes value -> list (bytes * value)) (langs : nat -> option lang).
  Definition good (h : heap) (xs : list loc) : Prop := CrashProofs.fits h xs /\ whole h xs.
  Lemma good_counted h h' xs : counted h h' -> good h xs -> good h' xs.
  Proof. intros Hc [H1 H2]. split; [by eapply fits_counted|by eapply whole_counted]. Qed.
  Lemma good_push h xs d : good h xs -> dataset_at h d -> no_holes h d -> good h (xs ++ [d]).
  Proof. intros [H1 H2] Hd Hn. split; [by apply fits_push|]. apply Forall_app. split; [done|]. by constructor. Qed.
  Lemma good_found n h xs key d : good h xs -> stack_data n h xs key = Ok (Some (VRef d)) -> no_holes h d.
  Proof.
    intros [_ Hw] Hs. eapply (whole_found h (reverse xs)); [by apply Forall_reverse|]. apply found_search. by exists n.
  Qed.
  Definition kept {A} (K : gset loc) (h : heap) (xs : list loc) (r : (heap * option (list loc)) * A) (K' : gset loc) (w : world) : Prop :=
    K' = K /\ exists h', r.1 = (h', Some xs) /\ counted h h'.
  Section Body.
    Context (n : nat) (lg : option lang) (inj : heap * option (list loc) -> loc -> tact (heap * option (list loc) * bytes)).
    Context (Hinj : forall h xs t K w, good h xs -> there w t -> goes (inj (h, Some xs) t) K w (kept K h xs)).
    Lemma goes_run_on h xs t K w : good h xs -> there w t -> goes (t_run_on inj (h, Some xs) t) K w (kept K h xs).
    Proof using Hinj.
      intros Hg Ht. unfold t_run_on. apply goes_bind. eapply goes_weaken; [|by apply Hinj]. intros [st out] K' w' _ (-> & h' & E & Hc). cbn in E |- *. split; [done|]. exists h'. by subst.
    Qed.
    Lemma goes_run_opt h xs r K w : good h xs -> (forall t, r = Some t -> there w t) -> goes (t_run_opt inj (h, Some xs) r) K w (kept K h xs).
    Proof using Hinj.
      intros Hg Ht. destruct r as [t|]; [apply goes_run_on; [done|by apply Ht]|]. cbn. split; [done|]. exists h. split; [done|]. apply counted_refl.
    Qed.
    Lemma goes_inner {A} h xs d t (k : heap * option (list loc) -> bytes -> option (list loc) -> tact A) K w (Phi : A -> gset loc -> world -> Prop) :
      good h xs -> dataset_at h d -> no_holes h d -> there w t ->
      (forall h' out w', counted h h' -> grows w w' -> goes (k (h', Some (xs ++ [d])) out (Some xs)) K w' Phi) ->
      goes (tbind (tlift (spush (Some xs) d)) (fun sc1 => tbind (inj (h, sc1) t) (fun r => let '(st2, out) := r in tbind (tlift (spop st2.2)) (fun sc3 => k st2 out sc3)))) K w Phi.
    Proof using Hinj.
      intros Hg Hd Hn Ht H. cbn [spush non_nil tlift tbind]. apply goes_bind. eapply goes_weaken; [|apply Hinj; [by apply good_push|done]].
      intros [st2 out] K' w' L' (-> & h' & E & Hc). cbn in E. subst st2. cbn [snd]. rewrite spop_push. cbn [tlift tbind]. by apply H.
    Qed.
    Lemma goes_reference h xs t xid K w : good h xs -> there w t -> goes (t_reference F ord n inj (h, Some xs) t xid) K w (kept K h xs).
    Proof using Hinj.
      intros Hg Ht.
      assert (Hgen : forall template, goes (r <~ t_get n t template; match r with None => TRet ((h, Some xs), []) | Some subt => t_run_on inj (h, Some xs) subt end) K w (kept K h xs)).
      { intros template. apply goes_bind. eapply goes_weaken; [|by apply goes_get]. intros [x|] K' w' L' [-> Hx]; [apply goes_run_on; [done|]; by apply pub_there, Hx|].
        split; [done|]. exists h. split; [done|]. apply counted_refl. }
      unfold t_reference. destruct xid as [|a [|field [|prefix [|e ws]]]]; [apply Hgen|apply Hgen| | |apply Hgen].
      - apply goes_bind. eapply goes_weaken; [|by apply goes_get]. intros [x|] K' w' L' [-> Hx]; [|split; [done|]; exists h; split; [done|]; apply counted_refl].
        specialize (Hx x eq_refl). apply pub_there in Hx. cbn [fst snd non_nil]. apply goes_bind, goes_lift; [by apply fits_data, Hg|]. intros v Hv.
        destruct (v ≫= as_dataset h) as [d|] eqn:Ed; [|by apply goes_run_on]. destruct v as [v|]; [|done]. cbn in Ed. apply as_dataset_some in Ed as [-> Hd].
        apply (goes_inner h xs d x (fun st2 out sc3 => TRet ((st2.1, sc3), [out]))); [done|done|by eapply good_found|done|]. intros h' out w2 Hc _. cbn. split; [done|]. by exists h'.
      - cbn [fst snd non_nil]. apply goes_bind, goes_lift; [by apply fits_string, Hg|]. intros v _. apply goes_bind. eapply goes_weaken; [|by apply goes_names].
        intros r K' w' L' [-> Hr]. apply goes_run_opt; [done|]. intros y Hy. by apply pub_there, Hr.
    Qed.
    Lemma goes_loop k : forall (i : nat) h xs t b x cl cs K w, good h xs -> there w t -> there w x -> collection_at h cl cs -> None ∉ cs -> (forall d, Some d ∈ cs -> no_holes h d) ->
      goes (t_loop n inj k (Z.of_nat i) (h, Some xs) t b x cl) K w (kept K h xs).
    Proof using Hinj.
      induction k as [|k IH]; intros i h xs t b x cl cs K w Hg Ht Hx Hcs Hnone Hds; [done|]. cbn [t_loop fst]. assert (Hel : elements h cl = Some cs) by (by apply elements_some).
      unfold ccount. rewrite Hel. cbn [tlift tbind]. destruct (bool_decide (Z.of_nat i < Z.of_nat (length cs))%Z) eqn:Eb; [|cbn; split; [done|]; exists h; split; [done|]; apply counted_refl].
      apply bool_decide_eq_true in Eb. apply goes_bind. eapply goes_weaken; [|by apply goes_names]. intros r K' w' L' [-> Hr].
      assert (Hg0 : exists d, cs !! i = Some (Some d) /\ cget h cl (Z.of_nat i) = Ok (Some (Some d))).
      { destruct (lookup_lt_is_Some_2 cs i) as [d0 Ei]; [lia|]. destruct d0 as [d|]; [|destruct Hnone; by eapply elem_of_list_lookup_2]. exists d. split; [done|]. unfold cget. rewrite Hel.
        rewrite bool_decide_eq_false_2 by lia. cbn [orb]. rewrite bool_decide_eq_false_2 by lia. by rewrite Nat2Z.id, Ei. }
      destruct Hg0 as (d & Ei & Hget). rewrite Hget. cbn [tlift tbind fst snd].
      assert (Hd : dataset_at h d) by (destruct Hg as [((_ & Hw) & _) _]; eapply Hw; [done|by eapply elem_of_list_lookup_2]).
      apply goes_bind, goes_lift; [apply chain_set_ok, wf_chain; [apply Hg|done]|]. intros h1 Hset. apply dset_inside in Hset as (x0 & m & Hins & Eh1).
      assert (Hcnt : counts h d i h1) by (by exists x0, m). assert (C1 : counted h h1) by (by eapply counts_counted).
      assert (Hnh : forall u v e, counted u v -> no_holes u e -> no_holes v e).
      { intros u v e Hc Hn. assert (Hw : whole v [e]) by (eapply whole_counted; [exact Hc|by constructor]). by apply Forall_inv in Hw. }
      apply (goes_inner h1 xs d _ (fun st2 out sc3 => '(st4, outs) <~ t_loop n inj k (Z.of_nat i + 1) (st2.1, sc3) t b x cl; TRet (st4, out :: outs))).
      - by eapply good_counted.
      - by apply (counted_dataset h h1).
      - eapply Hnh; [exact C1|]. apply Hds. by eapply elem_of_list_lookup_2.
      - destruct r as [y|]; [by apply pub_there, Hr|by eapply there_grows].
      - intros h' out w2 C2 L2. assert (C3 : counted h h') by (by eapply counted_trans). replace (Z.of_nat i + 1)%Z with (Z.of_nat (S i)) by lia. cbn [fst].
        apply goes_bind. assert (G2 : grows w w2) by (by eapply grows_trans). eapply goes_weaken; [|eapply (IH (S i) h' xs t b x cl cs); [by eapply good_counted|by eapply there_grows|by eapply there_grows|by apply (counted_collection h h')|done|]].
        + intros [st4 outs] K' w3 _ (-> & h4 & E & C4). cbn in E |- *. split; [done|]. exists h4. split; [done|]. by eapply counted_trans.
        + intros e He. eapply Hnh; [exact C3|]. by apply Hds.
    Qed.
    Lemma goes_range h xs t s K w : good h xs -> there w t -> goes (t_range n inj (h, Some xs) t s) K w (kept K h xs).
    Proof using Hinj.
      intros Hg Ht. unfold t_range. destruct (two_ids s) as [d b]. apply goes_bind. eapply goes_weaken; [|by apply goes_get]. cbn [fst snd].
      intros [x|] K' w' L' [-> Hx]; [|split; [done|]; exists h; split; [done|]; apply counted_refl]. specialize (Hx x eq_refl). apply pub_there in Hx. pose proof (there_grows _ _ _ L' Ht) as Ht'.
      assert (Hnone : goes (tmp <~ t_names n t [dot b (B "none")]; t_run_on inj (h, Some xs) (match tmp with Some x => x | None => x end)) K w' (kept K h xs)).
      { apply goes_bind. eapply goes_weaken; [|by apply goes_names]. intros r K' w2 L2 [-> Hr]. apply goes_run_on; [done|]. destruct r as [y|]; [by apply pub_there, Hr|by eapply there_grows]. }
      apply goes_bind, goes_lift. { unfold stack_collection. intros H. apply obind_panic in H as [H|(v & _ & H)]; [by apply fits_data in H; [|apply Hg]|done]. }
      intros cl Hcl. apply obind_ok in Hcl as (v & Hs & [= <-]). destruct (v ≫= as_collection h) as [l|] eqn:El; [|cbn [tlift tbind]; exact Hnone].
      destruct v as [v|]; [|done]. cbn in El. apply as_collection_some in El as [-> [cs Hcs]].
      unfold ccount. rewrite (proj2 (elements_some h l cs) Hcs). cbn [tlift tbind]. destruct (bool_decide _); [|exact Hnone].
      pose proof (good_found _ _ _ _ _ Hg Hs) as Hn. apply (goes_loop n 0 h xs t b x l cs); [done|done|done|done|by apply (Hn l); [apply rtc_refl|]|].
      intros e He c' xs' Hr. apply Hn. eapply rtc_l; [|exact Hr]. by eapply child_coll.
    Qed.
    Lemma goes_condition h xs t s K w : good h xs -> there w t -> goes (t_condition F ord n inj (h, Some xs) t s) K w (kept K h xs).
    Proof using Hinj.
      intros Hg Ht. unfold t_condition. destruct (two_ids s) as [d b]. assert (Hsp : forall h' v, sprint F ord n h' v <> Panic) by (intros; apply show_value_no_panic).
      apply goes_bind. eapply goes_weaken; [|by apply goes_get]. cbn [fst snd]. intros p K' w1 L1 [-> Hp]. pose proof (there_grows _ _ _ L1 Ht) as Ht1.
      apply goes_bind, goes_lift. { intros H. apply obind_panic in H as [H|(r & _ & H)]; [by apply fits_data in H; [|apply Hg]|done]. }
      intros value Hv. apply obind_ok in Hv as (r & Hs & [= Ev]).
      apply goes_bind. eapply (goes_weaken _ _ _ (fun a K' w' => K' = K /\ exists h', a.1.1 = (h', Some xs) /\ counted h h' /\ forall y, a.2 = Some y -> there w' y)).
      { intros [[st1 outs] s1] K' w2 L2 (-> & h1 & E & C1 & Hs1). cbn [fst snd] in E, Hs1. subst st1. cbn [fst]. assert (Ht2 : there w2 t) by (by eapply there_grows).
        assert (Hg1 : good h1 xs) by (by eapply good_counted). apply goes_bind, goes_lift.
        { destruct (is_nil value); [done|]. intros H. apply obind_panic in H as [H|(? & _ & H)]; [by apply Hsp in H|done]. }
        intros empty _. destruct empty; [|cbn; split; [done|]; by exists h1]. apply goes_bind. eapply goes_weaken; [|by apply goes_get]. intros q K' w3 L3 [-> Hq].
        apply goes_bind. eapply goes_weaken; [|apply goes_run_opt; [done|]].
        - intros [st2 outs2] K' w4 _ (-> & h2 & E & C2). cbn in E |- *. split; [done|]. exists h2. split; [done|]. by eapply counted_trans.
        - intros y Hy. destruct q as [z|]; [injection Hy as <-; by apply pub_there, Hq|]. eapply there_grows; [exact L3|]. by apply Hs1. }
      assert (Hpt : forall y, p = Some y -> there w1 y) by (intros y Hy; by apply pub_there, Hp).
      assert (Hskip : goes (TRet ((h, Some xs), [], p) : tact (heap * option (list loc) * list bytes * option loc)) K w1
        (fun a K' w' => K' = K /\ exists h', a.1.1 = (h', Some xs) /\ counted h h' /\ forall y, a.2 = Some y -> there w' y)).
      { cbn. split; [done|]. exists h. split; [done|]. split; [apply counted_refl|done]. }
      destruct p as [x|]; [|exact Hskip]. destruct (is_nil value) eqn:En; [exact Hskip|]. destruct (as_dataset h value) as [l|] eqn:Ed.
      - apply as_dataset_some in Ed as [-> Hd]. destruct r as [v|]; [|done]. subst v. cbn [spush non_nil tlift tbind].
        apply goes_bind. eapply goes_weaken; [|by apply goes_get]. intros q K' w2 L2 [-> Hq].
        assert (Hx2 : there w2 (match q with Some y => y | None => x end)) by (destruct q; [by apply pub_there, Hq|]; eapply there_grows; [exact L2|]; by apply Hpt).
        apply goes_bind. eapply goes_weaken; [|apply Hinj; [apply good_push; [done|done|by eapply good_found]|exact Hx2]].
        intros [st2 out] K' w3 L3 (-> & h' & E & Hc). cbn in E. subst st2. cbn [snd]. rewrite spop_push. cbn. split; [done|]. exists h'. split; [done|]. split; [done|]. intros y [= <-]. by eapply there_grows.
      - apply goes_bind, goes_lift; [done|]. intros sv _. destruct sv as [|c0 sv]; [exact Hskip|].
        apply goes_bind. eapply goes_weaken; [|by apply goes_get]. intros q K' w2 L2 [-> Hq].
        assert (Hx2 : there w2 (match q with Some y => y | None => x end)) by (destruct q; [by apply pub_there, Hq|]; eapply there_grows; [exact L2|]; by apply Hpt).
        apply goes_bind. eapply goes_weaken; [|apply Hinj; [done|exact Hx2]].
        intros [st2 out] K' w3 L3 (-> & h' & E & Hc). cbn in E. subst st2. cbn. split; [done|]. exists h'. split; [done|]. split; [done|]. intros y [= <-]. by eapply there_grows.
    Qed.
    Lemma goes_param h xs t p K w : good h xs -> there w t -> goes (t_param F ord n lg inj (h, Some xs) t p) K w (kept K h xs).
    Proof using Hinj.
      intros Hg Ht. assert (Hret : forall a : list bytes, goes (TRet ((h, Some xs), a) : tact (heap * option (list loc) * list bytes)) K w (kept K h xs)).
      { intros a. cbn. split; [done|]. exists h. split; [done|]. apply counted_refl. }
      unfold t_param. cbn [snd fst]. destruct (bool_decide (p_type p = MString)); [apply Hret|]. destruct (bool_decide (p_type p = MComment)); [apply Hret|]. destruct (bool_decide (p_type p = MLanguage)); [apply Hret|].
      destruct (bool_decide (p_type p = MReference)); [by apply goes_reference|]. destruct (bool_decide (p_type p = MVariable)).
      { apply goes_bind, goes_lift; [by apply fits_string, Hg|]. intros s _. apply Hret. }
      destruct (bool_decide (p_type p = MRange)); [by apply goes_range|]. destruct (bool_decide (p_type p = MCondition)); [by apply goes_condition|]. destruct (bool_decide (p_type p = MDump)); [|apply Hret].
      destruct xs as [|d xs]; [by destruct Hg as [(_ & ? & _) _]|]. destruct (bool_decide _); [|apply Hret]. apply goes_bind, goes_lift; [|intros s _; apply Hret].
      destruct Hg as [(Hw & _ & Hall) _]. apply show_chain_ok, wf_chain; [done|]. by apply Forall_inv in Hall.
    Qed.
    Lemma goes_params ps : forall h xs t K w, good h xs -> there w t -> goes (t_params F ord n lg inj (h, Some xs) t ps) K w (kept K h xs).
    Proof using Hinj.
      induction ps as [|p ps IH]; intros h xs t K w Hg Ht; [cbn; split; [done|]; exists h; split; [done|]; apply counted_refl|]. cbn [t_params]. apply goes_bind. eapply goes_weaken; [|by apply goes_param].
      intros [st1 a] K' w1 L1 (-> & h1 & E & C1). cbn in E. subst st1. apply goes_bind. eapply goes_weaken; [|apply IH; [by eapply good_counted|by eapply there_grows]].
      intros [st2 b] K' w2 _ (-> & h2 & E & C2). cbn in E |- *. split; [done|]. exists h2. split; [done|]. by eapply counted_trans.
    Qed.
  End Body.
  Lemma goes_injector n lg : forall h xs t K w, good h xs -> there w t -> goes (t_injector F ord n lg (h, Some xs) t) K w (kept K h xs).
  Proof.
    induction n as [|n IH]; intros h xs t K w Hg Ht; [done|]. cbn [t_injector]. apply goes_bind, goes_field; [done|]. intros w1 T L1 I1 HT.
    destruct (t_root T) as [ps0|] eqn:Er; [|cbn; split; [done|]; exists h; split; [done|]; apply counted_refl]. apply goes_bind, goes_field; [by exists T|]. intros w2 T2 L2 I2 HT2.
    destruct (proj1 L2 t T HT) as (T' & HT' & Hr & _). assert (T' = T2) as -> by congruence. destruct (t_root T2) as [ps|]; [|destruct Hr as [? Hr]; [by rewrite Er|done]].
    apply goes_bind. eapply goes_weaken; [|apply goes_params; [exact IH|done|by exists T2]]. intros [st1 outs] K' w3 _ (-> & h1 & E & C1). cbn in E |- *. split; [done|]. by exists h1.
  Qed.
  Lemma goes_execute n h t d K w : wf h -> dataset_at h d -> no_holes h d -> there w t ->
    goes (t_execute F ord langs n h t (Some d)) K w (fun r K' _ => K' = K /\ counted h r.1).
  Proof.
    intros Hw Hd Hn Ht. unfold t_execute. apply goes_bind, goes_lift; [by apply get_no_panic|]. intros r _. apply goes_bind. eapply goes_weaken; [|apply goes_injector; [|done]].
    - intros [st out] K' w' _ (-> & h' & E & C). cbn in E. by subst st.
    - split; [split; [done|]; split; [done|]; by constructor|by constructor].
  Qed.
  (** ** Any calls *)
  Lemma goes_calls n : forall cs held h K w, sound_calls h cs -> Forall (pub w) held -> goes (t_calls F ord langs n held h cs) K w (fun _ _ _ => True).
  Proof.
    assert (Hmap : forall {A C} (p : tact A) (g : A -> C) K w, goes p K w (fun _ _ _ => True) -> goes (x <~ p; TRet (g x)) K w (fun _ _ _ => True)).
    { intros A C p g K w H. apply goes_bind. eapply goes_weaken; [|exact H]. done. }
    induction cs as [|c cs IH]; intros held h K w Hs Hh; [done|].
    assert (Hs' : sound_calls h cs). { destruct Hs as (S1 & S2 & S3). split; [done|]. split; intros i ? Hi; [eapply S2|eapply S3]; by right. }
    destruct c as [|i data|i name j|i tord|i name|i data]; cbn [t_calls].
    - apply goes_bind. apply goes_make; [done|done|]. intros w1 c L1 I1 Hc. apply IH; [done|]. apply Forall_app. split; [by eapply pub_all|by constructor].
    - destruct (held !! i) as [t|] eqn:Et; [|by apply IH]. rewrite Forall_lookup in Hh. pose proof (Hh i t Et) as Ht. rewrite <- Forall_lookup in Hh. apply goes_bind. eapply goes_weaken; [|apply goes_load; by apply pub_there].
      intros ok K' w1 L1 ->. apply (Hmap _ _ _ (cons (Loaded ok))). apply IH; [done|by eapply pub_all].
    - destruct (held !! i) as [t|] eqn:Et; [|by apply IH]. destruct (held !! j) as [x|] eqn:Ex; [|by apply IH]. rewrite Forall_lookup in Hh. pose proof (Hh i t Et) as Ht. pose proof (Hh j x Ex) as Hx. rewrite <- Forall_lookup in Hh.
      apply goes_bind. eapply goes_weaken; [|apply goes_add; [by apply pub_there|done]]. intros [] K' w1 L1 ->. apply IH; [done|by eapply pub_all].
    - destruct (held !! i) as [t|] eqn:Et; [|by apply IH]. rewrite Forall_lookup in Hh. pose proof (Hh i t Et) as Ht. rewrite <- Forall_lookup in Hh.
      apply goes_bind. eapply goes_weaken; [|apply goes_clone; [eapply (proj2 (proj2 Hs)); by left|by apply pub_there]]. intros c K' w1 L1 [-> Hc]. apply IH; [done|]. apply Forall_app. split; [by eapply pub_all|by constructor].
    - destruct (held !! i) as [t|] eqn:Et; [|by apply IH]. rewrite Forall_lookup in Hh. pose proof (Hh i t Et) as Ht. rewrite <- Forall_lookup in Hh.
      apply goes_bind. eapply goes_weaken; [|apply goes_get; by apply pub_there]. intros r K' w1 L1 [-> Hr]. apply (Hmap _ _ _ (cons _)). apply IH; [done|].
      destruct r as [x|]; [|by eapply pub_all]. apply Forall_app. split; [by eapply pub_all|]. constructor; [by apply Hr|constructor].
    - destruct (held !! i) as [t|] eqn:Et; [|by apply IH]. rewrite Forall_lookup in Hh. pose proof (Hh i t Et) as Ht. rewrite <- Forall_lookup in Hh.
      destruct (proj1 (proj2 Hs) i data) as (d & -> & Hd & Hn); [by left|]. apply goes_bind. eapply goes_weaken; [|apply goes_execute; [apply Hs|exact Hd|exact Hn|by apply pub_there]].
      intros [h1 out] K' w1 L1 [-> C]. cbn in C. apply (Hmap _ _ _ (cons (Text out))). apply IH; [|by eapply pub_all]. destruct Hs' as (S1 & S2 & S3). split; [by eapply counted_wf|]. split; [|done].
      intros i0 data0 Hi0. destruct (S2 i0 data0 Hi0) as (d0 & -> & Hd0 & Hn0). exists d0. split; [done|]. split; [by apply (counted_dataset h h1)|].
      assert (Hw : whole h1 [d0]) by (eapply whole_counted; [exact C|by constructor]). by apply Forall_inv in Hw.
  Qed.
  (** ** No panic *)
  Lemma calls_no_panic n th (jobs : list (list loc * heap * list call)) th' ps i : closed th ->
    (forall held h cs, (held, h, cs) ∈ jobs -> (forall t, t ∈ held -> is_Some (th !! t)) /\ sound_calls h cs) ->
    rtc tstep (th, map (fun j => t_calls F ord langs n j.1.1 j.1.2 j.2) jobs) (th', ps) -> ps !! i <> Some TFail.
  Proof.
    intros [Hc1 Hc2] Hj Hrun Hf. set (ps0 := map _ jobs) in Hrun.
    assert (HG : all_go (th, ∅) ps0 (replicate (length ps0) ∅)).
    { split; [|split; [|split; [|split]]].
      - split; [intros x Hx; cbn in Hx; set_solver|]. split; [intros x X k y HX Hk; cbn; split; [by eapply Hc1|set_solver]|intros x X f HX Hf0; by eapply Hc2].
      - apply replicate_length.
      - intros k K Hk. apply lookup_replicate in Hk as [-> _]. set_solver.
      - intros a b Ka Kb _ Ha Hb. apply lookup_replicate in Ha as [-> _]. set_solver.
      - intros k p K Hp Hk. apply lookup_replicate in Hk as [-> _]. unfold ps0 in Hp. rewrite list_lookup_fmap in Hp. destruct (jobs !! k) as [[[held h] cs]|] eqn:Ek; [|done]. injection Hp as <-.
        destruct (Hj held h cs) as [Hh Hs]; [by eapply elem_of_list_lookup_2|]. apply goes_calls; [done|]. apply Forall_forall. intros x Hx. split; [by apply Hh|]. cbn. set_solver. }
    destruct (go_steps _ _ _ _ _ _ HG Hrun) as (P' & Ks' & _ & HL & _ & _ & HG'). assert (Hlt : i < length ps) by (by eapply lookup_lt_Some).
    destruct (lookup_lt_is_Some_2 Ks' i) as [K HK]; [lia|]. exact (HG' i _ K Hf HK).
  Qed.
End Execute.
