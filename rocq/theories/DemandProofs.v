(** * Loading on demand through the cache (C130): the cache holds the most recently requested keys. *)
From Verif Require Import GoBase CacheModel CacheSpec CacheProofs DemandSpec.
Local Open Scope nat_scope.

(** ** The keys in the order of their last request, the latest first *)
Fixpoint latest_from (l : list bytes) (ks : list bytes) : list bytes :=
  match ks with [] => l | k :: r => latest_from (k :: filter (fun x => x <> k) l) r end.
Definition latest (ks : list bytes) : list bytes := latest_from [] ks.
Lemma latest_from_snoc l ks k : latest_from l (ks ++ [k]) = k :: filter (fun x => x <> k) (latest_from l ks).
Proof. revert l. induction ks as [|a ks IH]; intros l; simpl; [done|apply IH]. Qed.
Lemma latest_snoc ks k : latest (ks ++ [k]) = k :: filter (fun x => x <> k) (latest ks).
Proof. apply latest_from_snoc. Qed.
Lemma latest_elem ks k : k ∈ latest ks <-> k ∈ ks.
Proof.
  induction ks as [|a ks IH] using rev_ind; [done|]. rewrite latest_snoc, elem_of_cons, elem_of_list_filter, IH, elem_of_app, elem_of_list_singleton.
  destruct (decide (k = a)); naive_solver.
Qed.
Lemma latest_NoDup ks : NoDup (latest ks).
Proof.
  induction ks as [|a ks IH] using rev_ind; [constructor|]. rewrite latest_snoc. constructor; [|by apply NoDup_filter].
  rewrite elem_of_list_filter. naive_solver.
Qed.
Lemma filter_neq_notin (k : bytes) (l : list bytes) : k ∉ l -> filter (fun x => x <> k) l = l.
Proof. induction l as [|a l IH]; intros H; [done|]. rewrite not_elem_of_cons in H. rewrite filter_cons_True by naive_solver. f_equal. apply IH. naive_solver. Qed.
Lemma filter_neq_length (k : bytes) (l : list bytes) : NoDup l -> k ∈ l -> S (length (filter (fun x => x <> k) l)) = length l.
Proof.
  induction 1 as [|a l Ha Hl IH]; intros Hk; [by apply elem_of_nil in Hk|]. destruct (decide (a = k)) as [->|Hne].
  - rewrite filter_cons_False by naive_solver. by rewrite filter_neq_notin.
  - rewrite filter_cons_True by done. simpl. f_equal. apply IH. apply elem_of_cons in Hk. naive_solver.
Qed.
Lemma latest_length ks : length (latest ks) = length (remove_dups ks).
Proof.
  apply Permutation_length, NoDup_Permutation; [apply latest_NoDup|apply NoDup_remove_dups|]. intros k. by rewrite latest_elem, elem_of_remove_dups.
Qed.
(** The keys requested since the last request of [k] come before [k]. *)
Lemma latest_since a k b : k ∉ b -> exists r, latest (a ++ k :: b) = latest b ++ k :: r.
Proof.
  induction b as [|x b IH] using rev_ind; intros Hk.
  - eexists. rewrite latest_snoc. done.
  - rewrite elem_of_app, elem_of_list_singleton in Hk. destruct IH as [r Hr]; [naive_solver|].
    exists (filter (fun y => y <> x) r). replace (a ++ k :: b ++ [x]) with ((a ++ k :: b) ++ [x]) by (by rewrite <- app_assoc).
    rewrite latest_snoc, Hr, latest_snoc, filter_app, filter_cons_True by naive_solver. done.
Qed.
Lemma take_NoDup n (l : list bytes) : NoDup l -> NoDup (take n l).
Proof. intros H. rewrite <- (take_drop n l) in H. by apply NoDup_app in H as (? & _ & _). Qed.
Lemma NoDup_reverse (l : list bytes) : NoDup l -> NoDup (reverse l).
Proof. intros H. by rewrite reverse_Permutation. Qed.
Lemma take_hit (k : bytes) n (l : list bytes) : NoDup l -> k ∈ take n l -> take n (k :: filter (fun x => x <> k) l) = k :: filter (fun x => x <> k) (take n l).
Proof.
  intros Hl Hk. destruct n as [|n]; [by apply elem_of_nil in Hk|]. rewrite firstn_cons. f_equal.
  rewrite <- (take_drop (S n) l) in Hl. apply NoDup_app in Hl as (H1 & H2 & _). apply H2 in Hk as Hd. apply filter_neq_length in Hk as Hlen; [|done].
  rewrite <- (take_drop (S n) l) at 1. rewrite filter_app, (filter_neq_notin k (drop _ _)) by done.
  destruct (decide (length l <= S n)) as [Hle|Hgt].
  - rewrite drop_ge by done. rewrite app_nil_r. apply take_ge. rewrite take_length in Hlen. lia.
  - rewrite take_length in Hlen. rewrite take_app_le by lia. apply take_ge. lia.
Qed.
Lemma take_miss (k : bytes) n (l : list bytes) : k ∉ take n l -> n <= length l -> take n (filter (fun x => x <> k) l) = take n l.
Proof.
  intros Hk Hn. rewrite <- (take_drop n l) at 1. rewrite filter_app, (filter_neq_notin k (take n l)) by done.
  rewrite take_app_le by (rewrite take_length; lia). apply take_ge. rewrite take_length. lia.
Qed.
Lemma remove_first_filter (k : bytes) (l : list bytes) : NoDup l -> remove_first k l = filter (fun x => x <> k) l.
Proof.
  induction 1 as [|a l Ha Hl IH]; [done|]. simpl. destruct (decide (a = k)) as [->|Hne].
  - rewrite filter_cons_False by naive_solver. by rewrite filter_neq_notin.
  - rewrite filter_cons_True by done. by rewrite IH.
Qed.
Lemma filter_reverse (P : bytes -> Prop) `{forall x, Decision (P x)} (l : list bytes) : filter P (reverse l) = reverse (filter P l).
Proof.
  induction l as [|a l IH]; [done|]. rewrite reverse_cons, filter_app, IH. destruct (decide (P a)).
  - rewrite (filter_cons_True P a l), reverse_cons by done. f_equal. by rewrite filter_cons_True.
  - rewrite (filter_cons_False P a l) by done. rewrite filter_cons_False by done. by rewrite app_nil_r.
Qed.
Lemma drop_reverse (l : list bytes) q : drop q (reverse l) = reverse (take (length l - q) l).
Proof. unfold reverse. rewrite <- !rev_alt. apply skipn_rev. Qed.

(** ** The number of entries *)
Lemma full_pos M : 10 <= full M.
Proof. unfold full. lia. Qed.
Lemma cleaned_lt M : cleaned M < full M /\ 9 <= cleaned M.
Proof. pose proof (full_pos M). unfold cleaned. assert (1 <= full M / 10) by (apply Nat.div_le_lower_bound; lia). assert (full M / 10 <= full M / 2) by (apply Nat.div_le_compat_l; lia).
  pose proof (Nat.div_mod (full M) 10 ltac:(lia)). lia. Qed.
Lemma held_0 M : held M 0 = 0.
Proof. unfold held. pose proof (full_pos M). destruct (bool_decide_reflect (M <= 0)%Z); [done|]. rewrite bool_decide_eq_true_2 by lia. done. Qed.
Lemma held_bounds M m : (0 < M)%Z -> held M m < full M /\ (m < full M -> held M m = m) /\ (full M <= m -> cleaned M <= held M m).
Proof.
  intros HM. pose proof (cleaned_lt M) as [H1 H2]. unfold held. rewrite bool_decide_eq_false_2 by lia. destruct (bool_decide_reflect (m < full M)).
  - lia.
  - pose proof (Nat.mod_upper_bound (m - cleaned M) (full M - cleaned M) ltac:(lia)). lia.
Qed.
Lemma held_S M m : held M (S m) = if bool_decide (0 < M)%Z && bool_decide (full M <= S (held M m)) then S (held M m) - S (held M m) / 10 else S (held M m).
Proof.
  destruct (bool_decide_reflect (0 < M)%Z) as [HM|HM]; cbn [andb]; [|unfold held; by rewrite !bool_decide_eq_true_2 by lia].
  pose proof (cleaned_lt M) as [H1 H2]. unfold held. rewrite !(bool_decide_eq_false_2 (M <= 0)%Z) by lia.
  destruct (bool_decide_reflect (m < full M)) as [Hm|Hm].
  - destruct (bool_decide_reflect (S m < full M)) as [Hs|Hs].
    + by rewrite bool_decide_eq_false_2 by lia.
    + assert (S m = full M) as -> by lia. rewrite bool_decide_eq_true_2 by done. rewrite Nat.mod_same by lia. rewrite Nat.add_0_r. done.
  - rewrite (bool_decide_eq_false_2 (S m < full M)) by lia.
    replace (S m - cleaned M) with (S (m - cleaned M)) by lia. set (x := m - cleaned M). set (p := full M - cleaned M).
    pose proof (Nat.mod_upper_bound x p ltac:(lia)) as Hb. assert (Hx : x = p * (x / p) + x mod p) by (apply Nat.div_mod; lia).
    destruct (decide (S (x mod p) = p)) as [E|E].
    + rewrite bool_decide_eq_true_2 by lia. assert (S x mod p = 0) as ->.
      { replace (S x) with (0 + (S (x / p)) * p) by lia. rewrite Nat.mod_add by lia. apply Nat.mod_0_l. lia. }
      replace (S (cleaned M + x mod p)) with (full M) by lia. unfold cleaned. lia.
    + rewrite bool_decide_eq_false_2 by lia. assert (S x mod p = S (x mod p)) as ->; [|lia].
      replace (S x) with (S (x mod p) + (x / p) * p) by lia. rewrite Nat.mod_add by lia. apply Nat.mod_small. lia.
Qed.

(** ** The cache *)
Section Serve.
  Context {D : Type} (dnil : D) (is_nil : D -> bool) (load : bytes -> D) (Hnil : is_nil dnil = true) (Hload : forall k, is_nil (load k) = false).
  (** The keys [ks] have been requested, [m] times a value was loaded. *)
  Record loaded (M : Z) (c : cache D) (ks : list bytes) (m : nat) : Prop := {
    ld_max : c_max c = M; ld_expire : c_expire c = 0%Z; ld_held : held M m <= length (latest ks);
    ld_pile : c_pile c = reverse (take (held M m) (latest ks));
    ld_items : forall k, k ∈ take (held M m) (latest ks) <-> is_Some (c_items c !! k);
    ld_entry : forall k e, c_items c !! k = Some e -> e_ttl e = 0%Z /\ e_data e = load k }.
  Lemma size_keys (items : gmap bytes (entry D)) l : NoDup l -> (forall k, k ∈ l <-> is_Some (items !! k)) -> size items = length l.
  Proof.
    intros Hn H. rewrite <- (size_dom (D := gset bytes)). replace (dom items) with (list_to_set l : gset bytes); [by apply size_list_to_set|].
    apply set_eq. intros k. rewrite elem_of_list_to_set, elem_of_dom. apply H.
  Qed.
  Lemma serve_step M c ks m q : agreeable q -> loaded M c ks m ->
    let hit := bool_decide (q_key q ∈ take (held M m) (latest ks)) in
    exists c', serve dnil is_nil load c q = (c', (load (q_key q), hit)) /\ loaded M c' (ks ++ [q_key q]) (if hit then m else S m).
  Proof using Hnil Hload.
    intros Hq [H1 H2 H3 H4 H5 H6] hit. destruct q as [k v [[t1 t2] t3] [tc tr] now]. unfold serve. cbn [q_key q_valid q_get q_set q_now step] in *. unfold get.
    pose proof (latest_NoDup ks) as Hnd. assert (Hnt : NoDup (take (held M m) (latest ks))) by (by apply take_NoDup).
    subst hit. destruct (bool_decide_reflect (k ∈ take (held M m) (latest ks))) as [Hk|Hk].
    - apply H5 in Hk as Hs. destruct Hs as [e He]. destruct (H6 k e He) as [Et Ed]. rewrite He.
      assert (rejected (c_expire c) v k e t1 t2 = false) as ->.
      { unfold rejected. rewrite H2, Et. rewrite !bool_decide_eq_true_2 by done. simpl. specialize (Hq (e_ctime e)). unfold accepts in Hq. cbn [q_key q_valid] in Hq. destruct v; [by rewrite Hq|done]. }
      rewrite Ed, Hload. eexists. split; [done|]. split; cbn [c_max c_expire c_pile c_items].
      + done.
      + done.
      + rewrite latest_snoc. simpl. assert (k ∈ latest ks) as Hin. { rewrite <- (take_drop (held M m) (latest ks)). apply elem_of_app. by left. }
        pose proof (filter_neq_length k _ Hnd Hin). lia.
      + rewrite latest_snoc, take_hit by done. rewrite reverse_cons, H4, remove_first_filter by (by apply NoDup_reverse). by rewrite filter_reverse.
      + intros x. rewrite latest_snoc, take_hit by done. rewrite elem_of_cons, elem_of_list_filter. destruct (decide (x = k)) as [->|Hne].
        * rewrite lookup_insert. naive_solver.
        * rewrite lookup_insert_ne by done. rewrite <- H5. naive_solver.
      + intros x e'. destruct (decide (x = k)) as [->|Hne]; [rewrite lookup_insert; intros [= <-]; done|]. rewrite lookup_insert_ne by done. apply H6.
    - destruct (c_items c !! k) as [e|] eqn:He; [by destruct Hk; apply H5; rewrite He|]. rewrite Hnil. cbn [step]. unfold set. rewrite He.
      assert (bool_decide (is_Some (@None (entry D))) = false) as -> by (apply bool_decide_eq_false_2; by intros [? ?]). set (n := held M m) in *. cbn [c_max c_expire c_items c_pile].
      assert (Hl : latest (ks ++ [k]) = k :: filter (fun x => x <> k) (latest ks)) by apply latest_snoc.
      assert (Htake : take (S n) (latest (ks ++ [k])) = k :: take n (latest ks)) by (rewrite Hl; simpl; by rewrite take_miss).
      assert (Hlen : S n <= length (latest (ks ++ [k]))).
      { assert (length (take (S n) (latest (ks ++ [k]))) = S n) as E; [|rewrite take_length in E; lia]. rewrite Htake. simpl. rewrite take_length. lia. }
      assert (Hkeys : forall x, x ∈ take (S n) (latest (ks ++ [k])) <-> is_Some (<[k := Entry tc tr 0 (load k)]> (c_items c) !! x)).
      { intros x. rewrite Htake, elem_of_cons, H5. destruct (decide (x = k)) as [->|Hne]; [rewrite lookup_insert; naive_solver|]. rewrite lookup_insert_ne by done. naive_solver. }
      assert (Hent : forall x e, <[k := Entry tc tr 0 (load k)]> (c_items c) !! x = Some e -> e_ttl e = 0%Z /\ e_data e = load x).
      { intros x e. destruct (decide (x = k)) as [->|Hne]; [rewrite lookup_insert; by intros [= <-]|]. rewrite lookup_insert_ne by done. apply H6. }
      assert (Hpile : c_pile c ++ [k] = reverse (take (S n) (latest (ks ++ [k])))) by (rewrite Htake, reverse_cons, H4; done).
      assert (Hnd' : NoDup (take (S n) (latest (ks ++ [k])))) by (apply take_NoDup, latest_NoDup).
      assert (Hsz : size (<[k := Entry tc tr 0 (load k)]> (c_items c)) = S n) by (rewrite (size_keys _ _ Hnd' Hkeys), take_length; lia).
      rewrite Hsz, H1. pose proof (held_S M m) as Hh. fold n in Hh. assert (Hsmall : (0 < M)%Z -> n < full M) by (intros HM; by apply held_bounds).
      destruct (bool_decide_reflect (M > 0 /\ Z.of_nat (S n) >= M)%Z) as [[HM Hge]|Hno].
      + unfold mclean. cbn [c_max c_expire c_items c_pile]. rewrite H2. unfold purge. rewrite decide_True by done. rewrite Hsz.
        set (q := S n / 10) in *.
        assert (Hquota : Z.to_nat (quota (Z.of_nat (S n)) 10) = q).
        { unfold quota. replace (Z.of_nat (S n) * 10)%Z with (Z.of_nat (S n * 10)) by lia. rewrite Z.quot_div_nonneg by lia.
          change 100%Z with (Z.of_nat 100). rewrite <- Nat2Z.inj_div, Nat2Z.id. unfold q. change 100 with (10 * 10). by rewrite Nat.div_mul_cancel_r by lia. }
        assert (Hq10 : q <= S n) by (apply Nat.div_le_upper_bound; lia).
        assert (Hh' : held M (S m) = S n - q).
        { rewrite Hh, bool_decide_eq_true_2 by lia. cbn [andb]. destruct (bool_decide_reflect (full M <= S n)); [done|].
          assert (S n < 10) as Hlt by (unfold full in *; lia). unfold q. rewrite Nat.div_small by done. lia. }
        rewrite Hquota, Hpile. destruct (evict_ok q (reverse (take (S n) (latest (ks ++ [k])))) (<[k := Entry tc tr 0 (load k)]> (c_items c))) as (items' & -> & Hi).
        { rewrite reverse_length, take_length. lia. }
        eexists. split; [done|]. split; cbn [c_max c_expire c_pile c_items fst]; rewrite ?Hh'.
        * done.
        * done.
        * lia.
        * rewrite drop_reverse, take_length, take_take. do 2 f_equal. lia.
        * intros x. rewrite Hi. set (P := reverse (take (S n) (latest (ks ++ [k])))).
          assert (E : x ∈ take (S n - q) (latest (ks ++ [k])) <-> x ∈ drop q P).
          { unfold P. rewrite drop_reverse, elem_of_reverse, take_length, take_take.
            replace (_ `min` _) with (S n - q) by lia. done. }
          assert (HP : NoDup P) by (by apply NoDup_reverse). rewrite <- (take_drop q P) in HP. apply NoDup_app in HP as (_ & HP & _).
          rewrite E. destruct (decide (x ∈ take q P)) as [Hx|Hx]; [split; [|by intros [? ?]]; intros Hd; by destruct (HP x Hx)|].
          assert (x ∈ P <-> x ∈ take q P \/ x ∈ drop q P) by (rewrite <- elem_of_app, take_drop; done).
          assert (x ∈ P <-> x ∈ take (S n) (latest (ks ++ [k]))) by apply elem_of_reverse. rewrite <- Hkeys. naive_solver.
        * intros x e. rewrite Hi. destruct (decide _); [done|]. apply Hent.
      + assert (Hh' : held M (S m) = S n).
        { rewrite Hh. destruct (bool_decide_reflect (0 < M)%Z); [|done]. cbn [andb]. rewrite bool_decide_eq_false_2; [done|]. unfold full. lia. }
        eexists. split; [done|]. split; cbn [c_max c_expire c_pile c_items fst]; rewrite ?Hh'; try done.
  Qed.
End Serve.
