(** * Facts about the string functions. *)
From Verif Require Import GoBase GoStrings.
From Coq Require Import Lia.
Local Open Scope Z_scope.

(** ** Split, join, cut *)
Lemma split_on_nonempty c s : split_on c s <> [].
Proof. induction s as [|x s IH]; simpl; [done|]. destruct (ascii_dec x c); [done|]. by destruct (split_on c s). Qed.
Lemma join_cons sep w ws : ws <> [] -> join sep (w :: ws) = w ++ sep ++ join sep ws.
Proof. by destruct ws. Qed.
Lemma join_split c s : join [c] (split_on c s) = s.
Proof.
  induction s as [|x s IH]; simpl; [done|]. destruct (ascii_dec x c) as [->|Hx].
  - rewrite join_cons by apply split_on_nonempty. by rewrite IH.
  - pose proof (split_on_nonempty c s). destruct (split_on c s) as [|w [|w2 ws]]; [done| |]; simpl in *; by rewrite IH.
Qed.
Lemma split_on_pieces c s : Forall (fun w => c ∉ w) (split_on c s).
Proof.
  induction s as [|x s IH]; simpl; [repeat constructor; set_solver|]. destruct (ascii_dec x c) as [->|Hx].
  - constructor; [set_solver|done].
  - destruct (split_on c s) as [|w ws]; [repeat constructor; set_solver|]. inversion IH; subst. constructor; [set_solver|done].
Qed.
Lemma split_on_none c s : c ∉ s -> split_on c s = [s].
Proof.
  induction s as [|x s IH]; simpl; intros Hc; [done|]. destruct (ascii_dec x c) as [->|Hx]; [set_solver|].
  rewrite IH; [done|set_solver].
Qed.
Lemma split_on_app c w s : c ∉ w -> split_on c (w ++ c :: s) = w :: split_on c s.
Proof.
  induction w as [|x w IH]; simpl; intros Hc.
  - by destruct (ascii_dec c c).
  - destruct (ascii_dec x c) as [->|Hx]; [set_solver|]. by rewrite IH by set_solver.
Qed.
Lemma split_join c ws : ws <> [] -> Forall (fun w => c ∉ w) ws -> split_on c (join [c] ws) = ws.
Proof.
  induction ws as [|w ws IH]; intros Hn Hf; [done|]. apply Forall_cons in Hf as [Hw Hf].
  destruct ws as [|w2 ws]; [by apply split_on_none|].
  rewrite join_cons by done. cbn [app]. change ([c] ++ join [c] (w2 :: ws)) with (c :: join [c] (w2 :: ws)).
  rewrite split_on_app by done. by rewrite IH.
Qed.
(** Splitting determines, and is determined by, the pieces. *)
Lemma split_on_unique c s ws :
  ws <> [] -> Forall (fun w => c ∉ w) ws -> s = join [c] ws <-> split_on c s = ws.
Proof. intros Hn Hf. split; [intros ->; by apply split_join|intros <-; by rewrite join_split]. Qed.
Lemma split_on_length c s : (length (split_on c s) = 1)%nat <-> c ∉ s.
Proof.
  split; [|intros H; by rewrite split_on_none]. intros Hl.
  pose proof (split_on_pieces c s) as Hp. pose proof (join_split c s) as Hj.
  destruct (split_on c s) as [|w [|]]; [done| |done]. simpl in Hj. subst. by inversion Hp.
Qed.

Lemma cut_at_none c s : cut_at c s = None <-> c ∉ s.
Proof.
  induction s as [|x s IH]; simpl; [split; [set_solver|done]|]. destruct (ascii_dec x c) as [->|Hx].
  - split; [done|]. set_solver.
  - destruct (cut_at c s) as [[a b]|]; [|set_solver]. split; [done|]. intros Hn. exfalso.
    assert (c ∉ s) by set_solver. by apply IH in H.
Qed.
Lemma cut_at_some c s a b : cut_at c s = Some (a, b) <-> s = a ++ c :: b /\ c ∉ a.
Proof.
  revert a b. induction s as [|x s IH]; intros a b; simpl.
  - split; [done|]. intros [H _]. by destruct a.
  - destruct (ascii_dec x c) as [->|Hx].
    + split; [intros [= <- <-]; split; [done|set_solver]|]. intros [H1 H2]. destruct a as [|y a]; simplify_eq/=; [done|]. set_solver.
    + destruct (cut_at c s) as [[a' b']|] eqn:E.
      * split.
        -- intros [= <- <-]. destruct (proj1 (IH a' b') eq_refl) as [-> Hn]. split; [done|]. set_solver.
        -- intros [H1 H2]. destruct a as [|y a]; simplify_eq/=.
           assert (Some (a', b') = Some (a, b)) by (apply IH; split; [done|set_solver]). by simplify_eq.
      * split; [done|]. intros [H1 H2]. destruct a as [|y a]; simplify_eq/=.
        assert (None = Some (a, b)) by (apply IH; split; [done|set_solver]). done.
Qed.

Lemma strip_prefix_some p s r : strip_prefix p s = Some r <-> s = p ++ r.
Proof.
  revert s. induction p as [|x p IH]; intros s; simpl; [split; congruence|].
  destruct s as [|y s]; [done|]. destruct (ascii_dec x y) as [->|Hxy]; [rewrite IH; split; congruence|].
  split; [done|]. congruence.
Qed.
Lemma strip_prefix_none p s : strip_prefix p s = None <-> forall r, s <> p ++ r.
Proof.
  split.
  - intros H r Hr. apply strip_prefix_some in Hr. congruence.
  - intros H. destruct (strip_prefix p s) as [r|] eqn:E; [|done]. apply strip_prefix_some in E. by apply H in E.
Qed.

(** ** Trimming *)
(** A run of white space. *)
Inductive blank (ws : list bytes) : bytes -> Prop :=
| blank_nil : blank ws []
| blank_cons w s : w ∈ ws -> blank ws s -> blank ws (w ++ s).
Lemma strip_one_some ws s r : strip_one ws s = Some r -> exists w, w ∈ ws /\ s = w ++ r.
Proof.
  induction ws as [|w ws IH]; simpl; [done|]. destruct (strip_prefix w s) as [r'|] eqn:E.
  - intros [= ->]. apply strip_prefix_some in E. exists w. split; [by left|done].
  - intros H. destruct (IH H) as (w' & Hw & Hs). exists w'. split; [by right|done].
Qed.
Lemma strip_one_none ws s : strip_one ws s = None <-> forall w r, w ∈ ws -> s <> w ++ r.
Proof.
  induction ws as [|w ws IH]; simpl; [split; [set_solver|done]|].
  destruct (strip_prefix w s) as [r'|] eqn:E.
  - split; [done|]. intros H. apply strip_prefix_some in E. destruct (H w r'); [by left|done].
  - rewrite IH. rewrite strip_prefix_none in E. split.
    + intros H w' r Hw. apply elem_of_cons in Hw as [->|Hw]; [by apply E|by apply H].
    + intros H w' r Hw. apply H. by right.
Qed.
Lemma strip_all_spec n ws s :
  (length s <= n)%nat -> Forall (fun w => w <> []) ws ->
  exists pre, blank ws pre /\ s = pre ++ strip_all n ws s /\ (forall w r, w ∈ ws -> strip_all n ws s <> w ++ r).
Proof.
  intros Hl Hw. revert s Hl. induction n as [|n IH]; intros s Hl; simpl.
  - destruct s; [|simpl in Hl; lia]. exists []. split_and!; [constructor|done|].
    intros w r Hin He. rewrite Forall_forall in Hw. apply Hw in Hin. by destruct w.
  - destruct (strip_one ws s) as [r|] eqn:E.
    + apply strip_one_some in E as (w & Hin & ->).
      assert (w <> []) by (rewrite Forall_forall in Hw; by apply Hw).
      destruct (IH r) as (pre & Hp & Hr & Hno).
      { rewrite app_length in Hl. destruct w; [done|]. simpl in Hl. lia. }
      exists (w ++ pre). split_and!; [by constructor| |done]. rewrite <- app_assoc. by rewrite <- Hr.
    + exists []. split_and!; [constructor|done|]. by apply strip_one_none.
Qed.

(** No encoding is a prefix (suffix) of another one. *)
Definition prefix_free (ws : list bytes) : Prop :=
  forall w1 w2 r1 r2, w1 ∈ ws -> w2 ∈ ws -> w1 ++ r1 = w2 ++ r2 -> w1 = w2.
Lemma prefix_free_check ws :
  forallb (fun w1 => forallb (fun w2 => bool_decide (w1 = w2) || bool_decide (strip_prefix w1 w2 = None)) ws) ws = true ->
  prefix_free ws.
Proof.
  intros Hc w1 w2 r1 r2 H1 H2 He. rewrite forallb_forall in Hc.
  assert (Hd : forall a b, a ∈ ws -> b ∈ ws -> a = b \/ forall r, b <> a ++ r).
  { intros a b Ha Hb. apply elem_of_list_In in Ha, Hb. specialize (Hc _ Ha). rewrite forallb_forall in Hc.
    specialize (Hc _ Hb). apply orb_true_iff in Hc as [Hc|Hc]; apply bool_decide_eq_true in Hc; [by left|].
    right. by apply strip_prefix_none. }
  apply app_eq_inv in He as [(k & Hk1 & Hk2)|(k & Hk1 & Hk2)].
  - destruct (Hd w2 w1 H2 H1) as [->|Hd']; [done|]. by apply Hd' in Hk1.
  - destruct (Hd w1 w2 H1 H2) as [->|Hd']; [done|]. by apply Hd' in Hk1.
Qed.
Lemma spaces_prefix_free : prefix_free spaces.
Proof. apply prefix_free_check. vm_compute. done. Qed.
Lemma spaces_suffix_free : prefix_free (map reverse spaces).
Proof. apply prefix_free_check. vm_compute. done. Qed.
Lemma spaces_nonempty : Forall (fun w => w <> []) spaces.
Proof. apply (bool_decide_unpack _). vm_compute. done. Qed.
Lemma rspaces_nonempty : Forall (fun w => w <> []) (map reverse spaces).
Proof. apply (bool_decide_unpack _). vm_compute. done. Qed.

Lemma blank_unique ws p1 r1 p2 r2 :
  prefix_free ws -> blank ws p1 -> blank ws p2 -> p1 ++ r1 = p2 ++ r2 ->
  (forall w r, w ∈ ws -> r1 <> w ++ r) -> (forall w r, w ∈ ws -> r2 <> w ++ r) -> p1 = p2 /\ r1 = r2.
Proof.
  intros Hpf Hb1. revert p2. induction Hb1 as [|w1 s1 Hw1 Hb1 IH]; intros p2 Hb2 He H1 H2.
  - destruct Hb2 as [|w2 s2 Hw2 Hb2]; [done|]. exfalso. simpl in He. rewrite <- app_assoc in He. by eapply H1.
  - destruct Hb2 as [|w2 s2 Hw2 Hb2].
    + exfalso. simpl in He. rewrite <- app_assoc in He. by eapply H2.
    + rewrite <- !app_assoc in He. assert (w1 = w2) as -> by (by eapply Hpf). apply app_inv_head in He.
      destruct (IH s2) as [-> ->]; done.
Qed.

(** What TrimSpace means. *)
Definition starts_blank (s : bytes) : Prop := exists w r, w ∈ spaces /\ s = w ++ r.
Definition ends_blank (s : bytes) : Prop := exists w r, w ∈ spaces /\ s = r ++ w.
Definition trimmed (s r : bytes) : Prop :=
  exists pre post, blank spaces pre /\ blank spaces post /\ s = pre ++ r ++ post /\ ~ starts_blank (r ++ post) /\ ~ ends_blank r.

Lemma blank_app ws a b : blank ws a -> blank ws b -> blank ws (a ++ b).
Proof. induction 1; [done|]. intros. rewrite <- app_assoc. constructor; eauto. Qed.
Lemma blank_one (ws : list bytes) w : w ∈ ws -> blank ws w.
Proof. intros. rewrite <- (app_nil_r w). constructor; [done|constructor]. Qed.
Lemma blank_reverse ws s : blank (map reverse ws) s -> blank ws (reverse s).
Proof.
  induction 1 as [|w s Hw Hb IH]; [constructor|]. rewrite reverse_app. apply blank_app; [done|].
  apply elem_of_list_fmap in Hw as (w' & -> & Hw). rewrite reverse_involutive. by apply blank_one.
Qed.
Lemma blank_reverse' ws s : blank ws s -> blank (map reverse ws) (reverse s).
Proof.
  induction 1 as [|w s Hw Hb IH]; [constructor|]. rewrite reverse_app. apply blank_app; [done|].
  apply blank_one. apply elem_of_list_fmap. eauto.
Qed.

Lemma trim_space_trimmed s : trimmed s (trim_space s).
Proof.
  unfold trim_space. destruct (strip_all_spec (length s) spaces s) as (pre & Hpre & Hs & Hno); [done|apply spaces_nonempty|].
  fold (trim_left s) in Hs, Hno. set (u := trim_left s) in *. unfold trim_right.
  destruct (strip_all_spec (length u) (map reverse spaces) (reverse u)) as (rp & Hrp & Hr & Hrno); [by rewrite reverse_length|apply rspaces_nonempty|].
  set (v := strip_all _ _ _) in *.
  assert (Hu : u = reverse v ++ reverse rp).
  { rewrite <- reverse_app, <- Hr. by rewrite reverse_involutive. }
  exists pre, (reverse rp). split_and!; [done|by apply blank_reverse|by rewrite <- Hu| |].
  - rewrite <- Hu. intros (w & r & Hw & He). by eapply Hno.
  - intros (w & r & Hw & He). eapply (Hrno (reverse w) (reverse r)); [apply elem_of_list_fmap; eauto|].
    rewrite <- reverse_app, <- He. by rewrite reverse_involutive.
Qed.
Lemma trimmed_unique s r1 r2 : trimmed s r1 -> trimmed s r2 -> r1 = r2.
Proof.
  intros (a1 & b1 & Ha1 & Hb1 & -> & Hs1 & He1) (a2 & b2 & Ha2 & Hb2 & He & Hs2 & He2).
  destruct (blank_unique spaces a1 (r1 ++ b1) a2 (r2 ++ b2)) as [_ Hr]; try done.
  { apply spaces_prefix_free. }
  { intros w r Hw Hx. apply Hs1. by exists w, r. }
  { intros w r Hw Hx. apply Hs2. by exists w, r. }
  assert (Hrev : reverse b1 ++ reverse r1 = reverse b2 ++ reverse r2) by (rewrite <- !reverse_app; congruence).
  destruct (blank_unique (map reverse spaces) (reverse b1) (reverse r1) (reverse b2) (reverse r2)) as [_ Hx]; try done.
  - apply spaces_suffix_free.
  - by apply blank_reverse'.
  - by apply blank_reverse'.
  - intros w r Hw Hx. apply elem_of_list_fmap in Hw as (w' & -> & Hw'). apply He1. exists w', (reverse r). split; [done|].
    rewrite <- (reverse_involutive r1), Hx, reverse_app. by rewrite reverse_involutive.
  - intros w r Hw Hx. apply elem_of_list_fmap in Hw as (w' & -> & Hw'). apply He2. exists w', (reverse r). split; [done|].
    rewrite <- (reverse_involutive r2), Hx, reverse_app. by rewrite reverse_involutive.
  - rewrite <- (reverse_involutive r1), Hx. by rewrite reverse_involutive.
Qed.
Lemma trim_space_spec s r : trim_space s = r <-> trimmed s r.
Proof.
  split; [intros <-; apply trim_space_trimmed|]. intros H. eapply trimmed_unique; [apply trim_space_trimmed|done].
Qed.
Lemma trim_space_id s : ~ starts_blank s -> ~ ends_blank s -> trim_space s = s.
Proof.
  intros H1 H2. apply trim_space_spec. exists [], []. rewrite app_nil_r. split_and!; try done; constructor.
Qed.

(** ** Order *)
Lemma bytes_le_refl a : bytes_le a a.
Proof. unfold bytes_le. induction a as [|x a IH]; simpl; [done|]. by rewrite N.compare_refl. Qed.
Lemma bytes_le_antisym a b : bytes_le a b -> bytes_le b a -> a = b.
Proof.
  unfold bytes_le. revert b. induction a as [|x a IH]; intros [|y b]; simpl; try done.
  destruct (N.compare_spec (N_of_ascii x) (N_of_ascii y)) as [He|Hl|Hg]; try done.
  - intros H1 H2. rewrite N.compare_antisym, He, N.compare_refl in H2. simpl in H2.
    rewrite (IH b); [|done|done]. f_equal. rewrite <- (ascii_N_embedding x), <- (ascii_N_embedding y). by f_equal.
  - intros _ H2. rewrite N.compare_antisym in H2. apply N.compare_lt_iff in Hl. by rewrite Hl in H2.
Qed.
Lemma bytes_le_trans a b c : bytes_le a b -> bytes_le b c -> bytes_le a c.
Proof.
  unfold bytes_le. revert b c. induction a as [|x a IH]; intros [|y b] [|z c]; simpl; try done.
  destruct (N.compare_spec (N_of_ascii x) (N_of_ascii y)) as [He|Hl|Hg]; try done;
  destruct (N.compare_spec (N_of_ascii y) (N_of_ascii z)) as [He2|Hl2|Hg2]; try done; intros H1 H2.
  - rewrite He, He2, N.compare_refl. by eapply IH.
  - rewrite He. apply N.compare_lt_iff in Hl2. by rewrite Hl2.
  - rewrite <- He2. apply N.compare_lt_iff in Hl. by rewrite Hl.
  - assert (Hl3 : (N_of_ascii x < N_of_ascii z)%N) by lia. apply N.compare_lt_iff in Hl3. by rewrite Hl3.
Qed.
Lemma bytes_le_total a b : bytes_le a b \/ bytes_le b a.
Proof.
  unfold bytes_le. revert b. induction a as [|x a IH]; intros [|y b]; simpl; try by (left + right).
  destruct (N.compare_spec (N_of_ascii x) (N_of_ascii y)) as [He|Hl|Hg].
  - rewrite He, N.compare_refl. apply IH.
  - by left.
  - right. apply N.compare_lt_iff in Hg. by rewrite Hg.
Qed.
Global Instance bytes_le_total_ : Total bytes_le := bytes_le_total.
Global Instance bytes_le_trans_ : Transitive bytes_le := bytes_le_trans.
Global Instance bytes_le_antisym_ : AntiSymm (=) bytes_le := bytes_le_antisym.

(** sort.Strings returns the only sorted rearrangement. *)
Lemma sort_strings_spec l r : sort_strings l = r <-> r ≡ₚ l /\ StronglySorted bytes_le r.
Proof.
  unfold sort_strings. split.
  - intros <-. split; [apply merge_sort_Permutation|]. apply StronglySorted_merge_sort; apply _.
  - intros [Hp Hs]. eapply (StronglySorted_unique bytes_le); [|done|by rewrite merge_sort_Permutation].
    apply StronglySorted_merge_sort; apply _.
Qed.
Lemma sort_strings_perm l1 l2 : l1 ≡ₚ l2 -> sort_strings l1 = sort_strings l2.
Proof.
  intros Hp. apply sort_strings_spec. destruct (proj1 (sort_strings_spec l2 _) eq_refl) as [H1 H2].
  split; [by rewrite H1|done].
Qed.

(** ** Decimal numbers *)
Lemma digit_val_digit z : 0 <= z <= 9 -> digit_val (digit z) = Some z.
Proof.
  intros Hz. unfold digit_val, digit. rewrite N_ascii_embedding by lia.
  rewrite bool_decide_true by lia. f_equal. lia.
Qed.
Lemma digits_val_app acc a b : digits_val acc (a ++ b) = match digits_val acc a with Some v => digits_val v b | None => None end.
Proof. revert acc. induction a as [|c a IH]; intros acc; simpl; [done|]. by destruct (digit_val c). Qed.
Lemma pos_digits_app n z acc : pos_digits n z acc = pos_digits n z [] ++ acc.
Proof.
  revert z acc. induction n as [|n IH]; intros z acc; simpl; [done|]. destruct (bool_decide (z < 10)); [done|].
  rewrite IH, (IH _ [_]). by rewrite <- app_assoc.
Qed.
Lemma pos_digits_val n z : 0 <= z < 2 ^ Z.of_nat n -> (0 < n)%nat -> digits_val 0 (pos_digits n z []) = Some z.
Proof.
  revert z. induction n as [|n IH]; intros z Hz Hn; [lia|]. cbn [pos_digits].
  destruct (bool_decide (z < 10)) eqn:E; [apply bool_decide_eq_true in E|apply bool_decide_eq_false in E].
  - simpl. rewrite digit_val_digit by lia. done.
  - rewrite pos_digits_app, digits_val_app. rewrite IH.
    + simpl. rewrite digit_val_digit by (pose proof (Z.mod_pos_bound z 10); lia).
      f_equal. pose proof (Z.div_mod z 10). lia.
    + rewrite Nat2Z.inj_succ, Z.pow_succ_r in Hz by lia. split; [apply Z.div_pos; lia|].
      apply Z.div_lt_upper_bound; lia.
    + destruct n; [simpl in Hz; lia|lia].
Qed.
Lemma digit_not_sign z : 0 <= z <= 9 -> digit z <> byte 45 /\ digit z <> byte 43.
Proof.
  intros Hz. assert (Hd : N_of_ascii (digit z) = (48 + Z.to_N z)%N) by (unfold digit; apply N_ascii_embedding; lia).
  split; intros He; rewrite He in Hd; [change (N_of_ascii (byte 45)) with 45%N in Hd|change (N_of_ascii (byte 43)) with 43%N in Hd]; lia.
Qed.
Lemma pos_digits_head n z : 0 <= z -> (0 < n)%nat ->
  exists c s, pos_digits n z [] = c :: s /\ c <> byte 45 /\ c <> byte 43.
Proof.
  revert z. induction n as [|n IH]; intros z Hz Hn; [lia|]. simpl.
  destruct (bool_decide (z < 10)) eqn:E; [apply bool_decide_eq_true in E|apply bool_decide_eq_false in E].
  - exists (digit z), []. split; [done|]. apply digit_not_sign. lia.
  - rewrite pos_digits_app. destruct n as [|n].
    + simpl. exists (digit (z mod 10)), []. split; [done|]. apply digit_not_sign. pose proof (Z.mod_pos_bound z 10). lia.
    + destruct (IH (z / 10)) as (c & s & -> & H1 & H2); [apply Z.div_pos; lia|lia|]. exists c, (s ++ [digit (z mod 10)]). done.
Qed.
Lemma log2_fuel z : 0 <= z -> 0 <= z < 2 ^ Z.of_nat (Z.to_nat (Z.log2 z) + 1).
Proof.
  intros Hz. split; [done|]. rewrite Nat2Z.inj_add, Z2Nat.id by apply Z.log2_nonneg.
  destruct (decide (z = 0)) as [->|Hnz]; [done|]. apply Z.log2_spec. lia.
Qed.
(** Atoi undoes Itoa on the integers of 64 bits. *)
Lemma atoi_itoa z : min_int <= z <= max_int -> atoi (itoa z) = Some z.
Proof.
  intros Hr. unfold itoa. destruct (bool_decide (z < 0)) eqn:E; [apply bool_decide_eq_true in E|apply bool_decide_eq_false in E].
  - unfold atoi. destruct (ascii_dec (byte 45) (byte 45)); [|done].
    pose proof (pos_digits_val (Z.to_nat (Z.log2 (- z)) + 1) (- z) (log2_fuel (- z) ltac:(lia)) ltac:(lia)) as Hv.
    destruct (pos_digits_head (Z.to_nat (Z.log2 (- z)) + 1) (- z)) as (c & s & Hd & _); [lia|lia|]. rewrite Hd in Hv |- *.
    rewrite Hv. rewrite bool_decide_true by lia. f_equal. lia.
  - unfold atoi.
    pose proof (pos_digits_val (Z.to_nat (Z.log2 z) + 1) z (log2_fuel z ltac:(lia)) ltac:(lia)) as Hv.
    destruct (pos_digits_head (Z.to_nat (Z.log2 z) + 1) z) as (c & s & Hd & H1 & H2); [lia|lia|]. rewrite Hd in Hv |- *.
    destruct (ascii_dec c (byte 45)); [done|]. destruct (ascii_dec c (byte 43)); [done|].
    rewrite Hv. rewrite bool_decide_true by lia. f_equal. lia.
Qed.

(** ** Lines *)
Lemma drop_cr_app l : drop_cr (l ++ [cr]) = l.
Proof. unfold drop_cr. rewrite reverse_app. simpl. destruct (ascii_dec cr cr); [|done]. by rewrite reverse_involutive. Qed.
Lemma drop_cr_other l : (forall l', l <> l' ++ [cr]) -> drop_cr l = l.
Proof.
  intros Hl. unfold drop_cr. destruct (reverse l) as [|c r] eqn:E; [done|]. destruct (ascii_dec c cr) as [->|]; [|done].
  destruct (Hl (reverse r)). rewrite <- (reverse_involutive l), E. by rewrite reverse_cons.
Qed.

(** ** Checking blanks by computation *)
Lemma not_starts_blank_check s : ~ starts_blank s <-> strip_one spaces s = None.
Proof.
  rewrite strip_one_none. unfold starts_blank. split.
  - intros H w r Hw ->. apply H. by exists w, r.
  - intros H (w & r & Hw & ->). by eapply H.
Qed.
Lemma not_ends_blank_check s : ~ ends_blank s <-> strip_one (map reverse spaces) (reverse s) = None.
Proof.
  rewrite strip_one_none. unfold ends_blank. split.
  - intros H w r Hw He. apply H. apply elem_of_list_fmap in Hw as (w' & -> & Hw). exists w', (reverse r). split; [done|].
    by rewrite <- (reverse_involutive s), He, reverse_app, reverse_involutive.
  - intros H (w & r & Hw & ->). eapply (H (reverse w) (reverse r)); [by apply elem_of_list_fmap_1|]. by rewrite reverse_app.
Qed.
