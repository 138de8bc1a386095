(** * Loading on demand through the cache (C130): which requests have to load. *)
From Verif Require Import GoBase CacheModel CacheSpec CacheProofs DemandSpec DemandProofs.
Local Open Scope nat_scope.
Section Requests.
  Context {D : Type} (dnil : D) (is_nil : D -> bool) (load : bytes -> D) (Hnil : is_nil dnil = true) (Hload : forall k, is_nil (load k) = false).
  Notation serve_all := (serve_all dnil is_nil load).
  Notation answers := (answers dnil is_nil load).
  Notation loads := (loads dnil is_nil load).
  Lemma serve_all_snoc c qs q : serve_all c (qs ++ [q]) =
    ((serve dnil is_nil load (serve_all c qs).1 q).1, (serve_all c qs).2 ++ [(serve dnil is_nil load (serve_all c qs).1 q).2]).
  Proof.
    revert c. induction qs as [|x qs IH]; intros c; simpl.
    - by destruct (serve _ _ _ c q).
    - destruct (serve _ _ _ c x) as [c1 a]. rewrite (IH c1). by destruct (serve_all c1 qs).
  Qed.
  Lemma loads_snoc M qs q a : answers M (qs ++ [q]) = answers M qs ++ [a] -> loads M (qs ++ [q]) = if a.2 then loads M qs else S (loads M qs).
  Proof.
    intros E. unfold DemandSpec.loads. rewrite E, filter_app, app_length. destruct a as [d [|]]; simpl; lia.
  Qed.
  Lemma run_loaded M qs : Forall agreeable qs -> loaded load M (serve_all (new_cache M 0) qs).1 (map q_key qs) (loads M qs) /\
    forall q, agreeable q -> answers M (qs ++ [q]) = answers M qs ++ [(load (q_key q), bool_decide (q_key q ∈ take (held M (loads M qs)) (latest (map q_key qs))))].
  Proof using Hnil Hload.
    intros H. assert (Hl : loaded load M (serve_all (new_cache M 0) qs).1 (map q_key qs) (loads M qs)).
    { induction qs as [|q qs IH] using rev_ind.
      - change (loads M []) with 0. split; rewrite ?held_0; cbn [DemandSpec.serve_all fst new_cache c_max c_expire c_items c_pile map].
        + done.
        + done.
        + simpl. lia.
        + done.
        + intros k. rewrite lookup_empty. split; [by intros ?%elem_of_nil|by intros [? ?]].
        + intros k e. by rewrite lookup_empty.
      - apply Forall_app in H as [H Hq]. inversion Hq as [|? ? Hq1 _]; subst. specialize (IH H).
        destruct (serve_step dnil is_nil load Hnil Hload M _ _ _ q Hq1 IH) as (c' & E & Hc').
        rewrite (loads_snoc M qs q (load (q_key q), bool_decide (q_key q ∈ take (held M (loads M qs)) (latest (map q_key qs))))).
        + rewrite serve_all_snoc, E, map_app. exact Hc'.
        + unfold DemandSpec.answers. rewrite serve_all_snoc, E. done. }
    split; [done|]. intros q Hq. destruct (serve_step dnil is_nil load Hnil Hload M _ _ _ q Hq Hl) as (c' & E & _).
    unfold DemandSpec.answers. rewrite serve_all_snoc, E. done.
  Qed.
  Lemma values_loaded M qs : Forall agreeable qs -> map fst (answers M qs) = map (fun q => load (q_key q)) qs.
  Proof using Hnil Hload.
    induction qs as [|q qs IH] using rev_ind; intros H; [done|]. apply Forall_app in H as [H Hq]. inversion Hq; subst.
    rewrite (proj2 (run_loaded M qs H)) by done. rewrite !map_app, IH by done. done.
  Qed.
  Lemma first_loads M qs q : Forall agreeable (qs ++ [q]) -> q_key q ∉ map q_key qs -> answers M (qs ++ [q]) = answers M qs ++ [(load (q_key q), false)].
  Proof using Hnil Hload.
    intros [H Hq]%Forall_app Hk. inversion Hq; subst. rewrite (proj2 (run_loaded M qs H)) by done. rewrite bool_decide_eq_false_2; [done|].
    intros Hin. apply Hk. apply latest_elem. rewrite <- (take_drop (held M (loads M qs)) (latest (map q_key qs))). apply elem_of_app. by left.
  Qed.
  Lemma again_served M a q0 b q : Forall agreeable (a ++ q0 :: b ++ [q]) -> q_key q0 = q_key q -> q_key q ∉ map q_key b ->
    answers M (a ++ q0 :: b ++ [q]) = answers M (a ++ q0 :: b) ++ [(load (q_key q), bool_decide (different b < held M (loads M (a ++ q0 :: b))))].
  Proof using Hnil Hload.
    intros H Hk Hb. replace (a ++ q0 :: b ++ [q]) with ((a ++ q0 :: b) ++ [q]) in * by (by rewrite <- app_assoc).
    apply Forall_app in H as [H Hq]. inversion Hq; subst. rewrite (proj2 (run_loaded M _ H)) by done. do 3 f_equal.
    rewrite map_app. cbn [map]. rewrite Hk. destruct (latest_since (map q_key a) (q_key q) (map q_key b) Hb) as [r ->].
    unfold different. rewrite <- latest_length. set (n := held _ _). apply bool_decide_ext.
    assert (Hnb : q_key q ∉ latest (map q_key b)) by (by rewrite latest_elem). split.
    - intros Hin. destruct (decide (n <= length (latest (map q_key b)))) as [Hle|]; [|lia]. rewrite take_app_le in Hin by done. destruct Hnb.
      rewrite <- (take_drop n). apply elem_of_app. by left.
    - intros Hlt. rewrite take_app_ge by lia. apply elem_of_app. right. destruct (n - _) as [|i] eqn:E; [lia|]. by left.
  Qed.
  Lemma count_held M qs : Forall agreeable qs -> (step dnil (serve_all (new_cache M 0) qs).1 OCount).2 = RInt (Z.of_nat (held M (loads M qs))).
  Proof using Hnil Hload.
    intros H. destruct (run_loaded M qs H) as [[_ _ Hl _ Hi _] _]. cbn [step snd]. do 2 f_equal.
    rewrite (size_keys _ (take (held M (loads M qs)) (latest (map q_key qs)))); [rewrite take_length; lia|apply take_NoDup, latest_NoDup|done].
  Qed.
  (** Every request is one of the two. *)
  Lemma last_request qs (k : bytes) : k ∉ map q_key qs \/ exists a q0 b, qs = a ++ q0 :: b /\ q_key q0 = k /\ k ∉ map q_key b.
  Proof.
    induction qs as [|q qs IH]; [left; by intros ?%elem_of_nil|]. destruct IH as [IH|(a & q0 & b & -> & ? & ?)].
    - destruct (decide (q_key q = k)); [right; by exists [], q, qs|left]. cbn [map]. rewrite elem_of_cons. naive_solver.
    - right. by exists (q :: a), q0, b.
  Qed.
  Lemma different_snoc qs q : different (qs ++ [q]) = if bool_decide (q_key q ∈ map q_key qs) then different qs else S (different qs).
  Proof.
    unfold different. rewrite <- !latest_length, map_app. cbn [map]. rewrite latest_snoc. simpl. destruct (bool_decide_reflect (q_key q ∈ map q_key qs)) as [H|H].
    - by rewrite filter_neq_length; [|apply latest_NoDup|apply latest_elem].
    - by rewrite filter_neq_notin by (by rewrite latest_elem).
  Qed.
  Lemma loads_different M qs : Forall agreeable qs -> (M <= 0)%Z \/ loads M qs < full M \/ different qs < full M -> loads M qs = different qs.
  Proof using Hnil Hload.
    induction qs as [|q qs IH] using rev_ind; intros H HM; [done|]. apply Forall_app in H as [H Hq]. inversion Hq; subst.
    rewrite (loads_snoc _ _ _ _ (proj2 (run_loaded M qs H) q ltac:(done))) in *. rewrite different_snoc in *. cbn [snd] in *.
    assert (E : loads M qs = different qs) by (apply IH; [done|]; destruct (bool_decide _), (bool_decide (q_key q ∈ map q_key qs)); lia).
    assert (Hm : held M (loads M qs) = loads M qs).
    { destruct (decide (M <= 0)%Z) as [Hz|Hz]; [unfold held; by rewrite bool_decide_eq_true_2|]. apply held_bounds; [lia|]. destruct HM as [HM|HM]; [lia|].
      destruct (bool_decide _), (bool_decide (q_key q ∈ map q_key qs)); lia. }
    assert (bool_decide (q_key q ∈ take (held M (loads M qs)) (latest (map q_key qs))) = bool_decide (q_key q ∈ map q_key qs)) as ->; [|by rewrite E].
    rewrite Hm, E, take_ge by (unfold different; rewrite <- latest_length; lia). apply bool_decide_ext, latest_elem.
  Qed.
  Lemma different_app a q0 b : q_key q0 ∉ map q_key b -> different b < different (a ++ q0 :: b).
  Proof.
    intros H. unfold different. rewrite <- !latest_length, map_app. cbn [map]. destruct (latest_since (map q_key a) (q_key q0) (map q_key b) H) as [r ->].
    rewrite app_length. simpl. lia.
  Qed.
  Lemma surely_served M a q0 b q : Forall agreeable (a ++ q0 :: b ++ [q]) -> q_key q0 = q_key q -> q_key q ∉ map q_key b -> (M <= 0)%Z \/ different b < cleaned M ->
    answers M (a ++ q0 :: b ++ [q]) = answers M (a ++ q0 :: b) ++ [(load (q_key q), true)].
  Proof using Hnil Hload.
    intros H Hk Hb HM. rewrite again_served by done. rewrite bool_decide_eq_true_2; [done|].
    replace (a ++ q0 :: b ++ [q]) with ((a ++ q0 :: b) ++ [q]) in * by (by rewrite <- app_assoc). apply Forall_app in H as [H _].
    pose proof (different_app a q0 b ltac:(by rewrite Hk)) as Hd. pose proof (loads_different M _ H) as E. destruct (decide (M <= 0)%Z) as [Hz|Hz].
    - unfold held. rewrite bool_decide_eq_true_2 by done. rewrite E by auto. done.
    - destruct (held_bounds M (loads M (a ++ q0 :: b)) ltac:(lia)) as (_ & H2 & H3). destruct (decide (loads M (a ++ q0 :: b) < full M)) as [Hl|Hl].
      + rewrite H2 by done. rewrite E by auto. done.
      + specialize (H3 ltac:(lia)). lia.
  Qed.
  Lemma surely_loaded M a q0 b q : Forall agreeable (a ++ q0 :: b ++ [q]) -> q_key q0 = q_key q -> q_key q ∉ map q_key b -> (0 < M)%Z -> full M <= S (different b) ->
    answers M (a ++ q0 :: b ++ [q]) = answers M (a ++ q0 :: b) ++ [(load (q_key q), false)].
  Proof using Hnil Hload.
    intros H Hk Hb HM Hf. rewrite again_served by done. rewrite bool_decide_eq_false_2; [done|].
    destruct (held_bounds M (loads M (a ++ q0 :: b)) HM) as (H1 & _). lia.
  Qed.
  Lemma larger_serves M1 M2 qs : Forall agreeable qs -> (0 < M1)%Z -> (M2 <= 0)%Z \/ full M1 <= S (cleaned M2) ->
    Forall2 (fun a1 a2 => a1.2 = true -> a2.2 = true) (answers M1 qs) (answers M2 qs) /\ loads M2 qs <= loads M1 qs.
  Proof using Hnil Hload.
    intros H HM1 HM2. induction qs as [|q qs IH] using rev_ind; [split; [constructor|done]|].
    pose proof H as [H' Hq]%Forall_app. destruct (IH H') as [IH1 IH2]. destruct (last_request qs (q_key q)) as [Hk|(a & q0 & b & -> & Hk & Hb)].
    - pose proof (first_loads M1 qs q H Hk) as E1. pose proof (first_loads M2 qs q H Hk) as E2. rewrite (loads_snoc _ _ _ _ E1), (loads_snoc _ _ _ _ E2), E1, E2. simpl.
      split; [|lia]. apply Forall2_app; [done|]. by repeat constructor.
    - rewrite <- app_assoc in H |- *. cbn [app] in H |- *.
      assert (Ha : a ++ q0 :: b ++ [q] = (a ++ q0 :: b) ++ [q]) by (by rewrite <- app_assoc).
      pose proof (again_served M1 a q0 b q H Hk Hb) as E1.
      destruct (decide ((M2 <= 0)%Z \/ different b < cleaned M2)) as [Hc|Hc].
      + pose proof (surely_served M2 a q0 b q H Hk Hb Hc) as E2. rewrite Ha in *. rewrite (loads_snoc _ _ _ _ E1), (loads_snoc _ _ _ _ E2), E1, E2. cbn [snd].
        split; [|destruct (bool_decide _); lia]. apply Forall2_app; [done|]. by repeat constructor.
      + pose proof (again_served M2 a q0 b q H Hk Hb) as E2. rewrite bool_decide_eq_false_2 in E1.
        * rewrite Ha in *. rewrite (loads_snoc _ _ _ _ E1), (loads_snoc _ _ _ _ E2), E1, E2. cbn [snd].
          split; [|destruct (bool_decide _); lia]. apply Forall2_app; [done|]. by repeat constructor.
        * destruct (held_bounds M1 (loads M1 (a ++ q0 :: b)) HM1) as (H1 & _). lia.
  Qed.
  Lemma far_apart M qs : Forall agreeable qs -> (0 < M)%Z ->
    (forall a q0 b q c, qs = a ++ q0 :: b ++ q :: c -> q_key q0 = q_key q -> full M <= S (different b)) -> loads M qs = length qs.
  Proof using Hnil Hload.
    intros H HM. induction qs as [|q qs IH] using rev_ind; [done|]. intros Hf. pose proof H as [H' Hq]%Forall_app.
    assert (E : answers M (qs ++ [q]) = answers M qs ++ [(load (q_key q), false)]).
    { destruct (last_request qs (q_key q)) as [Hk|(a & q0 & b & -> & Hk & Hb)]; [by apply first_loads|].
      rewrite <- app_assoc in H |- *. cbn [app] in H |- *. eapply surely_loaded; [done..|]. eapply (Hf a q0 b q []); [|done]. by rewrite <- app_assoc. }
    rewrite (loads_snoc _ _ _ _ E), app_length. cbn [snd length]. rewrite IH; [lia|done|]. intros a q0 b q1 c -> Hk. eapply (Hf a q0 b q1 (c ++ [q])); [|done].
    by rewrite <- app_assoc; simpl; rewrite <- app_assoc.
  Qed.
End Requests.

(** ** A larger cache that loads more *)
Definition plain_request (k : bytes) : request := Req k None (0, 0, 0)%Z (0, 0)%Z (fun _ => 0%Z).
Definition numbered (i : nat) : bytes := replicate i "x"%char.
(** 30 new keys; then, again and again, the 28th latest key and two new ones. *)
Fixpoint odd_keys (r : nat) : list bytes :=
  match r with
  | O => map numbered (seq 0 30)
  | S r' => odd_keys r' ++ [nth 27 (latest (odd_keys r')) []; numbered (30 + 2 * r'); numbered (31 + 2 * r')]
  end.
Definition odd_requests (r : nat) : list request := map plain_request (odd_keys r).
Lemma plain_agreeable ks : Forall agreeable (map plain_request ks).
Proof. apply Forall_forall. intros q (k & -> & _)%elem_of_list_fmap t. done. Qed.
Lemma plain_keys ks : map q_key (map plain_request ks) = ks.
Proof. induction ks as [|k ks IH]; simpl; [done|by rewrite IH]. Qed.
Section Odd.
  Context {D : Type} (dnil : D) (is_nil : D -> bool) (load : bytes -> D) (Hnil : is_nil dnil = true) (Hload : forall k, is_nil (load k) = false).
  Notation loads := (loads dnil is_nil load).
  Lemma loads_plain M ks k : loads M (map plain_request (ks ++ [k])) =
    if bool_decide (k ∈ take (held M (loads M (map plain_request ks))) (latest ks)) then loads M (map plain_request ks) else S (loads M (map plain_request ks)).
  Proof using Hnil Hload.
    rewrite map_app. cbn [map]. rewrite (loads_snoc _ _ _ _ _ _ _ (proj2 (run_loaded dnil is_nil load Hnil Hload M _ (plain_agreeable ks)) (plain_request k) ltac:(done))).
    cbn [snd q_key plain_request]. by rewrite plain_keys.
  Qed.
  Lemma loads_new M ks k : k ∉ ks -> loads M (map plain_request (ks ++ [k])) = S (loads M (map plain_request ks)).
  Proof using Hnil Hload.
    intros Hk. rewrite loads_plain, bool_decide_eq_false_2; [done|]. intros Hin. apply Hk, latest_elem.
    rewrite <- (take_drop (held M (loads M (map plain_request ks))) (latest ks)). apply elem_of_app. by left.
  Qed.
  Lemma odd_run r : (forall k, k ∈ odd_keys r -> length k < 30 + 2 * r) /\ loads 29 (odd_requests r) = 30 + 2 * r /\ loads 30 (odd_requests r) = 30 + 3 * r.
  Proof using Hnil Hload.
    induction r as [|r (IH1 & IH2 & IH3)].
    - split; [|split].
      + intros k (i & -> & Hi)%elem_of_list_fmap. apply elem_of_seq in Hi. unfold numbered. rewrite replicate_length. lia.
      + assert (E : forall M n, (n <= 30)%nat -> loads M (map plain_request (map numbered (seq 0 n))) = n).
        { intros M n. induction n as [|n IH]; intros Hn; [done|]. rewrite seq_S, map_app. cbn [map]. rewrite loads_new; [by rewrite IH by lia|].
          intros (i & Ei & Hi)%elem_of_list_fmap. apply elem_of_seq in Hi. apply (f_equal length) in Ei. unfold numbered in Ei. rewrite !replicate_length in Ei. lia. }
        unfold odd_requests. cbn [odd_keys]. by rewrite E.
      + assert (E : forall M n, (n <= 30)%nat -> loads M (map plain_request (map numbered (seq 0 n))) = n).
        { intros M n. induction n as [|n IH]; intros Hn; [done|]. rewrite seq_S, map_app. cbn [map]. rewrite loads_new; [by rewrite IH by lia|].
          intros (i & Ei & Hi)%elem_of_list_fmap. apply elem_of_seq in Hi. apply (f_equal length) in Ei. unfold numbered in Ei. rewrite !replicate_length in Ei. lia. }
        unfold odd_requests. cbn [odd_keys]. by rewrite E.
    - unfold odd_requests in *. cbn [odd_keys]. set (ks := odd_keys r) in *. set (k := nth 27 (latest ks) []).
      assert (Hh1 : held 29 (30 + 2 * r) = 28).
      { unfold held. rewrite bool_decide_eq_false_2 by lia. change (full 29) with 29. change (cleaned 29) with 27. rewrite bool_decide_eq_false_2 by lia.
        replace (30 + 2 * r - 27) with (1 + (S r) * 2) by lia. change (29 - 27) with 2. rewrite Nat.mod_add by lia. done. }
      assert (Hh2 : held 30 (30 + 3 * r) = 27).
      { unfold held. rewrite bool_decide_eq_false_2 by lia. change (full 30) with 30. change (cleaned 30) with 27. rewrite bool_decide_eq_false_2 by lia.
        replace (30 + 3 * r - 27) with (0 + (S r) * 3) by lia. change (30 - 27) with 3. rewrite Nat.mod_add by lia. done. }
      assert (Hlen : 28 <= length (latest ks)).
      { destruct (run_loaded dnil is_nil load Hnil Hload 29 _ (plain_agreeable ks)) as [[_ _ H _ _ _] _]. by rewrite IH2, plain_keys, Hh1 in H. }
      assert (Hk : latest ks !! 27 = Some k).
      { destruct (nth_lookup_or_length (latest ks) 27 []) as [E|E]; [done|lia]. }
      assert (Hin : k ∈ ks) by (apply latest_elem; by eapply elem_of_list_lookup_2).
      assert (L1 : loads 29 (map plain_request (ks ++ [k])) = 30 + 2 * r).
      { rewrite loads_plain, IH2, Hh1, bool_decide_eq_true_2; [done|]. eapply elem_of_list_lookup_2. rewrite lookup_take; [exact Hk|lia]. }
      assert (L2 : loads 30 (map plain_request (ks ++ [k])) = S (30 + 3 * r)).
      { rewrite loads_plain, IH3, Hh2, bool_decide_eq_false_2; [done|]. intros (i & Hi)%elem_of_list_lookup.
        assert (i < 27) by (apply lookup_lt_Some in Hi; rewrite take_length in Hi; lia). rewrite lookup_take in Hi by done.
        pose proof (NoDup_lookup _ _ _ _ (latest_NoDup ks) Hi Hk). lia. }
      assert (N1 : numbered (30 + 2 * r) ∉ ks ++ [k]).
      { intros [H%IH1|H%elem_of_list_singleton]%elem_of_app; [|rewrite <- H in Hin; apply IH1 in Hin as H']; unfold numbered in *; rewrite replicate_length in *; lia. }
      assert (N2 : numbered (31 + 2 * r) ∉ (ks ++ [k]) ++ [numbered (30 + 2 * r)]).
      { intros [[H%IH1|H%elem_of_list_singleton]%elem_of_app|H%elem_of_list_singleton]%elem_of_app.
        - unfold numbered in H. rewrite replicate_length in H. lia.
        - rewrite <- H in Hin. apply IH1 in Hin. unfold numbered in Hin. rewrite replicate_length in Hin. lia.
        - apply (f_equal length) in H. unfold numbered in H. rewrite !replicate_length in H. lia. }
      replace (ks ++ [k; numbered (30 + 2 * r); numbered (31 + 2 * r)]) with (((ks ++ [k]) ++ [numbered (30 + 2 * r)]) ++ [numbered (31 + 2 * r)]) by (by rewrite <- !app_assoc).
      rewrite (loads_new 29 _ _ N2), (loads_new 30 _ _ N2), (loads_new 29 _ _ N1), (loads_new 30 _ _ N1), L1, L2. split; [|lia].
      intros x. rewrite !elem_of_app, !elem_of_list_singleton. unfold numbered. intros [[[H%IH1| ->]| ->]| ->]; rewrite ?replicate_length; try lia. apply IH1 in Hin. lia.
  Qed.
  Lemma larger_loads_more r : exists ks, loads 29 (map plain_request ks) = 30 + 2 * r /\ loads 30 (map plain_request ks) = 30 + 3 * r.
  Proof using Hnil Hload. exists (odd_keys r). destruct (odd_run r) as (_ & H1 & H2). done. Qed.
End Odd.
(** ** Requests by number *)
Definition value_of (k : bytes) : Z := (Z.of_nat (length k) + 1)%Z.
Definition shop_requests (l : list nat) : list request := map (fun i => plain_request (numbered i)) l.
Lemma shop_case : Forall agreeable (shop_requests (seq 0 25 ++ [7; 24; 6; 5])) /\
  map snd (answers 0%Z (Z.eqb 0) value_of 20 (shop_requests (seq 0 25 ++ [7; 24; 6; 5]))) = replicate 25 false ++ [true; true; true; false] /\
  loads 0%Z (Z.eqb 0) value_of 20 (shop_requests (concat (replicate 3 (seq 0 20)))) = 60 /\
  loads 0%Z (Z.eqb 0) value_of 20 (shop_requests (concat (replicate 3 (seq 0 19)))) = 19.
Proof. split; [|vm_compute; done]. by repeat constructor. Qed.
