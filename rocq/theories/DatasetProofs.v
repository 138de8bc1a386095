(** * Reading datasets: paths, map laws, typed getters. *)
From Coq Require Import SpecFloat.
From Verif Require Import GoBase GoStrings GoStringsProofs DatasetModel DatasetSpec.
Local Open Scope Z_scope.

(** ** Atoi *)
Lemma digit_val_spec c d : digit_val c = Some d <-> 0 <= d <= 9 /\ Z.of_N (N_of_ascii c) = 48 + d.
Proof.
  unfold digit_val. set (n := Z.of_N (N_of_ascii c)) in *. destruct (bool_decide (0 <= n - 48 <= 9)) eqn:E.
  - apply bool_decide_eq_true in E. split; [intros [= <-]; lia|]. intros [? ?]. f_equal. lia.
  - apply bool_decide_eq_false in E. split; [done|]. lia.
Qed.
Lemma digits_val_spec s acc v :
  digits_val acc s = Some v <->
  exists ds, Forall2 (fun d c => 0 <= d <= 9 /\ Z.of_N (N_of_ascii c) = 48 + d) ds s /\ fold_left (fun a d => 10 * a + d) ds acc = v.
Proof.
  revert acc. induction s as [|c s IH]; intros acc; simpl.
  - split.
    + intros [= <-]. exists []. split; [constructor|done].
    + intros (ds & H & <-). inversion H. done.
  - destruct (digit_val c) as [d|] eqn:E.
    + apply digit_val_spec in E. rewrite IH. split.
      * intros (ds & H & <-). exists (d :: ds). split; [by constructor|done].
      * intros (ds & H & <-). inversion H as [|d' c' ds' s' Hd Hds]; subst. exists ds'. split; [done|].
        simpl. f_equal. lia.
    + split; [done|]. intros (ds & H & _). inversion H as [|d' c' ds' s' Hd Hds]; subst.
      apply digit_val_spec in Hd. congruence.
Qed.
Lemma number_nonneg_acc ds acc : Forall (fun d => 0 <= d <= 9) ds -> 0 <= acc -> 0 <= fold_left (fun a d => 10 * a + d) ds acc.
Proof. intros H. revert acc. induction H as [|d ds Hd _ IH]; intros acc Ha; simpl; [done|]. apply IH. lia. Qed.
Lemma digits_nonneg ds s : digits ds s -> 0 <= number ds.
Proof.
  intros [_ H]. apply number_nonneg_acc; [|lia]. induction H as [|d c ds s [? _] _ IH]; by constructor.
Qed.
Lemma digits_head ds c s : digits ds (c :: s) -> c <> byte 45 /\ c <> byte 43.
Proof.
  intros [_ H]. inversion H as [|d ? ? ? [Hd Hc]]; subst. split; intros ->; [change (45 = 48 + d) in Hc|change (43 = 48 + d) in Hc]; lia.
Qed.
Lemma atoi_spec s z : atoi s = Some z <-> denotes s z.
Proof.
  assert (Hds : forall t v, t <> [] -> digits_val 0 t = Some v <-> exists ds, digits ds t /\ number ds = v).
  { intros t v Ht. rewrite digits_val_spec. split; intros (ds & H & <-).
    - exists ds. split; [|done]. split; [|done]. intros ->. inversion H. by subst.
    - exists ds. split; [apply H|done]. }
  assert (Hmin : min_int = - 2 ^ 63) by done. assert (Hmax : max_int = 2 ^ 63 - 1) by done.
  split.
  - unfold atoi. destruct s as [|c s]; [done|].
    destruct (ascii_dec c (byte 45)) as [->|H45]; [|destruct (ascii_dec c (byte 43)) as [->|H43]].
    + destruct s as [|c s]; [done|]. destruct (digits_val 0 (c :: s)) as [v|] eqn:E; [|done].
      apply Hds in E as (ds & Hd & <-); [|done]. case_bool_decide; [|done]. intros [= <-].
      change (byte 45) with "-"%char. replace (-1 * number ds) with (- number ds) by lia.
      constructor; [done|lia].
    + destruct s as [|c s]; [done|]. destruct (digits_val 0 (c :: s)) as [v|] eqn:E; [|done].
      apply Hds in E as (ds & Hd & <-); [|done]. case_bool_decide; [|done]. intros [= <-].
      change (byte 43) with "+"%char. rewrite Z.mul_1_l. constructor; [done|lia].
    + destruct (digits_val 0 (c :: s)) as [v|] eqn:E; [|done].
      apply Hds in E as (ds & Hd & <-); [|done]. case_bool_decide; [|done]. intros [= <-].
      rewrite Z.mul_1_l. constructor; [done|lia].
  - intros H. inversion H as [ds t Hd Hn|ds t Hd Hn|ds t Hd Hn]; subst;
      pose proof (digits_nonneg _ _ Hd) as Hp; unfold atoi.
    + destruct s as [|c s]; [destruct Hd as [Hne Hf]; inversion Hf; by subst|].
      destruct (digits_head _ _ _ Hd) as [H45 H43].
      destruct (ascii_dec c (byte 45)) as [?|_]; [done|]. destruct (ascii_dec c (byte 43)) as [?|_]; [done|].
      assert (digits_val 0 (c :: s) = Some (number ds)) as -> by (apply Hds; [done|]; by exists ds).
      rewrite Z.mul_1_l. rewrite bool_decide_eq_true_2; [done|]. lia.
    + destruct (ascii_dec "+"%char (byte 45)) as [E|_]; [done|]. destruct (ascii_dec "+"%char (byte 43)) as [_|E]; [|done].
      destruct t as [|c s]; [destruct Hd as [Hne Hf]; inversion Hf; by subst|].
      assert (digits_val 0 (c :: s) = Some (number ds)) as -> by (apply Hds; [done|]; by exists ds).
      rewrite Z.mul_1_l. rewrite bool_decide_eq_true_2; [done|]. lia.
    + destruct (ascii_dec "-"%char (byte 45)) as [_|E]; [|done].
      destruct t as [|c s]; [destruct Hd as [Hne Hf]; inversion Hf; by subst|].
      assert (digits_val 0 (c :: s) = Some (number ds)) as -> by (apply Hds; [done|]; by exists ds).
      replace (-1 * number ds) with (- number ds) by lia. rewrite bool_decide_eq_true_2; [done|]. lia.
Qed.

(** ** Kinds *)
Lemma as_dataset_some h v d : as_dataset h v = Some d <-> v = VRef d /\ dataset_at h d.
Proof.
  unfold as_dataset, dataset_at. split.
  - destruct v as [| | | | | | | | | | | |l|]; try done. destruct (h !! l) as [[m|w|xs|xs]|] eqn:E; try done; intros [= <-]; eauto.
  - intros [-> [[m ->]|[w ->]]]; done.
Qed.
Lemma as_collection_some h v c : as_collection h v = Some c <-> v = VRef c /\ exists xs, collection_at h c xs.
Proof.
  unfold as_collection, collection_at. split.
  - destruct v as [| | | | | | | | | | | |l|]; try done. destruct (h !! l) as [[m|w|xs|xs]|] eqn:E; try done; intros [= <-]; eauto.
  - intros [-> (xs & [->| ->])]; done.
Qed.
Lemma elements_some h c xs : elements h c = Some xs <-> collection_at h c xs.
Proof.
  unfold elements, collection_at. split.
  - destruct (h !! c) as [[m|w|ys|ys]|]; try done; intros [= ->]; eauto.
  - intros [->| ->]; done.
Qed.
Lemma as_dataset_none h v : as_dataset h v = None -> forall d, v = VRef d -> ~ dataset_at h d.
Proof. intros H d -> Hd. assert (as_dataset h (VRef d) = Some d) by (by apply as_dataset_some). congruence. Qed.
Lemma as_collection_none h v : as_collection h v = None -> forall c xs, v = VRef c -> ~ collection_at h c xs.
Proof. intros H d xs -> Hd. assert (as_collection h (VRef d) = Some d) by (apply as_collection_some; eauto). congruence. Qed.
Lemma not_both h d xs : dataset_at h d -> collection_at h d xs -> False.
Proof. intros [[? H]|[? H]] [H'|H']; congruence. Qed.
Lemma collection_det h c xs ys : collection_at h c xs -> collection_at h c ys -> xs = ys.
Proof. intros [H|H] [H'|H']; congruence. Qed.

Lemma cget_spec h c xs i : collection_at h c xs ->
  cget h c i = Ok (if bool_decide (0 <= i) then xs !! Z.to_nat i else None).
Proof.
  intros H. unfold cget. apply elements_some in H. rewrite H.
  destruct (bool_decide_reflect (i < 0)) as [Hn|Hn]; cbn [orb].
  - rewrite (bool_decide_eq_false_2 (0 <= i)); [done|lia].
  - rewrite (bool_decide_eq_true_2 (0 <= i)); [|lia].
    destruct (bool_decide_reflect (Z.of_nat (length xs) <= i)) as [Hl|Hl].
    + f_equal. symmetry. apply lookup_ge_None_2. lia.
    + destruct (lookup_lt_is_Some_2 xs (Z.to_nat i)) as [x Hx]; [lia|]. by rewrite Hx.
Qed.

(** ** More fuel does not change a result *)
Lemma dget_mono n m h l key r : (n <= m)%nat -> dget n h l key = r -> r <> NoFuel -> dget m h l key = r.
Proof.
  revert m l key r. induction n as [|n IH]; intros m l key r Hle; simpl; [by intros <-|].
  destruct m as [|m]; [lia|]. simpl. destruct (h !! l) as [[mp|[d|]|xs|xs]|] eqn:El; try done.
  - destruct (split_on gt key) as [|x0 [|x1 rest]]; try done.
    destruct (mp !! x0) as [v|]; [|done]. destruct (as_dataset h v) as [ds|].
    + apply IH. lia.
    + destruct (as_collection h v) as [c|]; [|done]. destruct (atoi x1); [|done].
      destruct (cget h c z) as [[[d|]|]| |]; try done. cbn [obind]. destruct rest; [done|]. apply IH. lia.
  - apply IH. lia.
Qed.
Lemma dget_unique n m h l key r r' : dget n h l key = r -> r <> NoFuel -> dget m h l key = r' -> r' <> NoFuel -> r = r'.
Proof.
  intros H1 N1 H2 N2. apply (dget_mono _ (n + m)) in H1; [|lia|done]. apply (dget_mono _ (n + m)) in H2; [|lia|done]. congruence.
Qed.

(** ** Paths (C20) *)
Lemma join_concat w ws : join [gt] (w :: ws) = w ++ concat (map (cons ">"%char) ws).
Proof.
  revert w. induction ws as [|x ws IH]; intros w.
  - simpl. by rewrite app_nil_r.
  - rewrite join_cons by done. rewrite IH. done.
Qed.
Lemma split_rest key x0 ws : split_on gt key = x0 :: ws -> ws <> [] -> split_on gt (join [gt] ws) = ws.
Proof.
  intros H Hne. pose proof (split_on_pieces gt key) as Hp. rewrite H in Hp. apply Forall_cons in Hp as [_ Hp]. by apply split_join.
Qed.
Lemma split_rest2 key x0 x1 ws : split_on gt key = x0 :: x1 :: ws -> ws <> [] -> split_on gt (join [gt] ws) = ws.
Proof.
  intros H Hne. pose proof (split_on_pieces gt key) as Hp. rewrite H in Hp. apply Forall_cons in Hp as [_ Hp].
  apply Forall_cons in Hp as [_ Hp]. by apply split_join.
Qed.

Lemma index_none h c xs x1 : collection_at h c xs ->
  match atoi x1 with None => True | Some e => forall d, cget h c e <> Ok (Some (Some d)) end ->
  forall i d, denotes x1 (Z.of_nat i) -> xs !! i <> Some (Some d).
Proof.
  intros Hc H i d Hd Hx. apply atoi_spec in Hd. rewrite Hd in H. apply (H d).
  rewrite (cget_spec _ _ _ _ Hc), bool_decide_eq_true_2 by lia. by rewrite Nat2Z.id, Hx.
Qed.

Lemma dget_at_path n h l key r : dget n h l key = Ok r -> at_path h l (split_on gt key) r.
Proof.
  revert l key r. induction n as [|n IH]; intros l key r; cbn [dget]; [done|].
  destruct (h !! l) as [[m|[d|]|xs|xs]|] eqn:El; try done.
  2:{ intros H. eapply ap_wrap; [done|]. by apply IH. }
  destruct (split_on gt key) as [|x0 [|x1 rest]] eqn:Es; [by destruct (split_on_nonempty gt key)| |].
  { intros [= <-]. assert (key = x0) as ->.
    { pose proof (join_split gt key) as Hj. rewrite Es in Hj. done. }
    by apply ap_last. }
  assert (Hkey : key = x0 ++ concat (map (cons ">"%char) (x1 :: rest))).
  { rewrite <-join_concat, <-Es. by rewrite join_split. }
  destruct (m !! x0) as [v|] eqn:Ex; [|intros [= <-]; by eapply ap_missing].
  destruct (as_dataset h v) as [ds|] eqn:Ed.
  { apply as_dataset_some in Ed as [-> Hds]. intros H. apply IH in H. rewrite (split_rest _ _ _ Es) in H by done.
    by eapply ap_dataset. }
  destruct (as_collection h v) as [c|] eqn:Ec.
  - apply as_collection_some in Ec as [-> (xs & Hc)]. pose proof (index_none h c xs x1 Hc) as Hi.
    destruct (atoi x1) as [e|] eqn:Ea.
    + rewrite (cget_spec _ _ _ _ Hc) in *. cbn [obind].
      destruct (bool_decide_reflect (0 <= e)) as [He|He]; [destruct (xs !! Z.to_nat e) as [[d|]|] eqn:Exs|].
      * assert (Hden : denotes x1 (Z.of_nat (Z.to_nat e))) by (rewrite Z2Nat.id by done; by apply atoi_spec).
        destruct rest as [|x2 rest].
        -- intros [= <-]. by eapply ap_element.
        -- intros H. apply IH in H. rewrite (split_rest2 _ _ _ _ Es) in H by done. by eapply ap_in_element.
      * intros [= <-]. eapply ap_no_index; [done..|]. by apply Hi.
      * intros [= <-]. eapply ap_no_index; [done..|]. by apply Hi.
      * intros [= <-]. eapply ap_no_index; [done..|]. by apply Hi.
    + intros [= <-]. eapply ap_no_index; [done..|]. by apply Hi.
  - intros [= <-]. rewrite Hkey. eapply ap_literal; [done..| |done].
    split; [by apply as_dataset_none|by apply as_collection_none].
Qed.

Lemma at_path_dget h l p r : at_path h l p r -> forall key, split_on gt key = p -> exists n, dget n h l key = Ok r.
Proof.
  induction 1 as [l d p r Hl _ IH|l m k Hl|l m k p Hl Hk Hp|l m k d p r Hl Hk Hd Hp _ IH|l m k c xs s p Hl Hk Hc Hi
    |l m k c xs s i d Hl Hk Hc Hs Hx|l m k c xs s i d p r Hl Hk Hc Hs Hx Hp _ IH|l m k p v Hl Hk Hv Hp]; intros key Hkey.
  - destruct (IH key Hkey) as [n Hn]. exists (S n). simpl. by rewrite Hl.
  - exists 1%nat. simpl. rewrite Hl, Hkey. pose proof (join_split gt key) as Hj. rewrite Hkey in Hj. simpl in Hj. by subst.
  - exists 1%nat. simpl. rewrite Hl, Hkey. destruct p; [done|]. by rewrite Hk.
  - destruct p as [|x1 rest]; [done|]. destruct (IH _ (split_rest _ _ _ Hkey Hp)) as [n Hn]. exists (S n). cbn [dget].
    rewrite Hl, Hkey, Hk. assert (as_dataset h (VRef d) = Some d) as -> by (by apply as_dataset_some). done.
  - exists 1%nat. cbn [dget]. rewrite Hl, Hkey, Hk. destruct (as_dataset h (VRef c)) as [ds|] eqn:E.
    { apply as_dataset_some in E as [[= ->] E]. by destruct (not_both _ _ _ E Hc). }
    assert (as_collection h (VRef c) = Some c) as -> by (apply as_collection_some; eauto).
    destruct (atoi s) as [e|] eqn:Ea; [|done]. rewrite (cget_spec _ _ _ _ Hc). cbn [obind].
    destruct (bool_decide_reflect (0 <= e)) as [He|He]; [|done].
    destruct (xs !! Z.to_nat e) as [[d|]|] eqn:Ex; try done.
    apply atoi_spec in Ea. destruct (Hi (Z.to_nat e) d); [|done]. by rewrite Z2Nat.id.
  - exists 1%nat. cbn [dget]. rewrite Hl, Hkey, Hk. destruct (as_dataset h (VRef c)) as [ds|] eqn:E.
    { apply as_dataset_some in E as [[= ->] E]. by destruct (not_both _ _ _ E Hc). }
    assert (as_collection h (VRef c) = Some c) as -> by (apply as_collection_some; eauto).
    apply atoi_spec in Hs. rewrite Hs, (cget_spec _ _ _ _ Hc). cbn [obind].
    rewrite bool_decide_eq_true_2 by lia. by rewrite Nat2Z.id, Hx.
  - destruct p as [|x2 rest]; [done|]. destruct (IH _ (split_rest2 _ _ _ _ Hkey Hp)) as [n Hn]. exists (S n). cbn [dget].
    rewrite Hl, Hkey, Hk. destruct (as_dataset h (VRef c)) as [ds|] eqn:E.
    { apply as_dataset_some in E as [[= ->] E]. by destruct (not_both _ _ _ E Hc). }
    assert (as_collection h (VRef c) = Some c) as -> by (apply as_collection_some; eauto).
    apply atoi_spec in Hs. rewrite Hs, (cget_spec _ _ _ _ Hc). cbn [obind].
    rewrite bool_decide_eq_true_2 by lia. by rewrite Nat2Z.id, Hx.
  - exists 1%nat. cbn [dget]. rewrite Hl, Hkey. destruct p as [|x1 rest]; [done|]. rewrite Hk. destruct Hv as [Hv1 Hv2].
    destruct (as_dataset h v) as [ds|] eqn:E; [apply as_dataset_some in E as [-> E]; by destruct (Hv1 ds)|].
    destruct (as_collection h v) as [c|] eqn:E'; [apply as_collection_some in E' as [-> (xs & E')]; by destruct (Hv2 c xs)|].
    do 3 f_equal. rewrite <-join_concat, <-Hkey. by rewrite join_split.
Qed.

Lemma get_paths h l key r : (exists n, dget n h l key = Ok r) <-> at_path h l (split_on gt key) r.
Proof. split; [intros [n H]; by eapply dget_at_path|]. intros H. by eapply at_path_dget. Qed.

Lemma at_path_det h l p r r' : p <> [] -> Forall (fun w => gt ∉ w) p -> at_path h l p r -> at_path h l p r' -> r = r'.
Proof.
  intros Hne Hp H H'. pose proof (split_join gt p Hne Hp) as Hs.
  destruct (at_path_dget _ _ _ _ H _ Hs) as [n Hn], (at_path_dget _ _ _ _ H' _ Hs) as [n' Hn'].
  assert (Ok r = Ok r') as [= ->] by (by eapply (dget_unique n n')). done.
Qed.

Lemma chain_dataset h l : chain h l -> dataset_at h l.
Proof. destruct 1; unfold dataset_at; eauto. Qed.
Lemma wf_chain h l : wf h -> dataset_at h l -> chain h l.
Proof. intros [Hw _] [[m H]|[w H]]; [by eapply chain_ds|by eapply Hw]. Qed.
Lemma plain_or_not h v :
  plain h v \/ (exists d, v = VRef d /\ dataset_at h d) \/ (exists c xs, v = VRef c /\ collection_at h c xs).
Proof.
  destruct (as_dataset h v) as [d|] eqn:E; [apply as_dataset_some in E; eauto|].
  destruct (as_collection h v) as [c|] eqn:E'; [apply as_collection_some in E' as [? [xs ?]]; eauto 10|].
  left. split; [by apply as_dataset_none|by apply as_collection_none].
Qed.
Lemma at_path_total h l p : wf h -> dataset_at h l -> p <> [] -> exists r, at_path h l p r.
Proof.
  intros Hwf Hl Hp. remember (length p) as n eqn:En. revert l p Hl Hp En.
  induction n as [n IHn] using lt_wf_ind. intros l p Hl Hp ->. pose proof (wf_chain _ _ Hwf Hl) as Hch.
  induction Hch as [l m Hm|l d Hd _ IH].
  2:{ destruct IH as [r Hr]; [|exists r; by eapply ap_wrap]. destruct Hwf as [Hw _]. destruct (Hw _ _ Hd) as [|? ? ? Hc]; [congruence|].
      simplify_eq. by apply chain_dataset. }
  destruct p as [|k p]; [done|]. destruct (decide (p = [])) as [->|Hne]; [exists (m !! k); by apply ap_last|].
  destruct (m !! k) as [v|] eqn:Ek; [|exists None; by eapply ap_missing].
  destruct (plain_or_not h v) as [Hv|[(d & -> & Hd)|(c & xs & -> & Hc)]].
  - eexists. by eapply ap_literal.
  - destruct (IHn (length p)) with (l := d) (p := p) as [r Hr]; [simpl; lia|done..|]. exists r. by eapply ap_dataset.
  - destruct p as [|s p]; [done|]. destruct (atoi s) as [e|] eqn:Ea.
    + destruct (cget h c e) as [[[d|]|]| |] eqn:Ec.
      * rewrite (cget_spec _ _ _ _ Hc) in Ec. destruct (bool_decide_reflect (0 <= e)) as [He|]; [|done].
        injection Ec as Ec. assert (denotes s (Z.of_nat (Z.to_nat e))) by (rewrite Z2Nat.id by done; by apply atoi_spec).
        destruct (decide (p = [])) as [->|Hpn]; [eexists; by eapply ap_element|].
        destruct (IHn (length p)) with (l := d) (p := p) as [r Hr]; [simpl; lia| |done|done|].
        -- destruct Hwf as [_ He2]. eapply He2; [done|]. by eapply elem_of_list_lookup_2.
        -- exists r. by eapply ap_in_element.
      * exists None. eapply ap_no_index; [done..|]. apply (index_none h c xs s Hc). rewrite Ea, Ec. done.
      * exists None. eapply ap_no_index; [done..|]. apply (index_none h c xs s Hc). rewrite Ea, Ec. done.
      * exists None. eapply ap_no_index; [done..|]. apply (index_none h c xs s Hc). rewrite Ea, Ec. done.
      * exists None. eapply ap_no_index; [done..|]. apply (index_none h c xs s Hc). rewrite Ea, Ec. done.
    + exists None. eapply ap_no_index; [done..|]. apply (index_none h c xs s Hc). by rewrite Ea.
Qed.
Lemma get_total h l key : wf h -> dataset_at h l ->
  exists n r, forall n', (n <= n')%nat -> dget n' h l key = Ok r.
Proof.
  intros Hwf Hl. destruct (at_path_total h l (split_on gt key)) as [r Hr]; [done..|apply split_on_nonempty|].
  destruct (at_path_dget _ _ _ _ Hr key eq_refl) as [n Hn]. exists n, r. intros n' Hle. by eapply dget_mono.
Qed.
Lemma get_no_panic n h l key : wf h -> dataset_at h l -> dget n h l key <> Panic.
Proof.
  intros Hwf Hl Hp. destruct (get_total h l key Hwf Hl) as (n' & r & H).
  assert (Panic = Ok r) by (eapply (dget_unique n n'); [done..|by apply H|done]). done.
Qed.
