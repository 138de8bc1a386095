(** * Paths through a collection whose elements move by one place (C104). *)
From Verif Require Import GoBase GoStrings GoStringsProofs DatasetModel DatasetSpec DatasetProofs DatasetProofs2 DatasetProofs4 DatasetProofs5 PathSpec PathProofs.
From Coq Require Import Lia.

Lemma moved_first h c l p p' x : moved h c l p p' x -> walk h l p x.
Proof.
  induction 1; [constructor|by eapply wk_wrap|by eapply wk_dataset|by eapply wk_element|by eapply wk_element].
Qed.
Lemma moved_nonempty h c l p p' x : moved h c l p p' x -> p <> [] -> p' <> [].
Proof. induction 1; naive_solver. Qed.
(** Two heaps that differ only in that [c] has one more element in front in the second one. *)
Definition one_more (c : loc) (h h' : heap) : Prop := (forall y, y <> c -> h' !! y = h !! y) /\
  exists xs e, (h !! c = Some (OColl xs) /\ h' !! c = Some (OColl (e :: xs))) \/ (h !! c = Some (OCollTS xs) /\ h' !! c = Some (OCollTS (e :: xs))).
Lemma one_more_ds c h h' : one_more c h h' -> forall y m, h !! y = Some (ODs m) <-> h' !! y = Some (ODs m).
Proof.
  intros [Ho (xs & e & Hc)] y m. destruct (decide (y = c)) as [->|]; [|by rewrite Ho].
  destruct Hc as [[E E']|[E E']]; rewrite E, E'; done.
Qed.
Lemma one_more_ts c h h' : one_more c h h' -> forall y w, h !! y = Some (OTs w) <-> h' !! y = Some (OTs w).
Proof.
  intros [Ho (xs & e & Hc)] y m. destruct (decide (y = c)) as [->|]; [|by rewrite Ho].
  destruct Hc as [[E E']|[E E']]; rewrite E, E'; done.
Qed.
Lemma moved_second c h h' : one_more c h h' -> forall l p p' x, moved h c l p p' x -> walk h' l p' x.
Proof.
  intros Hm l p p' x. pose proof (one_more_ds c h h' Hm) as Hd. pose proof (one_more_ts c h h' Hm) as Ht. destruct Hm as [Ho (xs0 & e & Hc)].
  induction 1 as [l|l d p p' x Hl Hp Hw IH|l m k d p p' x Hl Hk Hat Hw IH|l m k c' xs s i d p p' x Hl Hk Hat Hne Hs Hi Hw IH|l m k xs s s' i d p p' x Hl Hk Hat Hs Hs' Hi Hw IH].
  - constructor.
  - eapply wk_wrap; [by apply Ht|by eapply moved_nonempty|done].
  - eapply wk_dataset; [by apply Hd|done| |done]. destruct Hat as [[m' E]|[w E]]; [left; exists m'; by apply Hd|right; exists w; by apply Ht].
  - eapply wk_element; [by apply Hd|done| |done|done|done]. unfold collection_at in *. by rewrite Ho.
  - eapply (wk_element h' l m k c (e :: xs) s' (S i) d); [by apply Hd|done| | |done|done].
    + unfold collection_at in *. destruct Hc as [[E E']|[E E']]; destruct Hat as [Hat|Hat]; simplify_eq; first [by left|by right].
    + by replace (Z.of_nat (S i)) with (Z.of_nat i + 1)%Z by lia.
Qed.
Lemma one_more_key c h h' : one_more c h h' -> forall x p r, (at_path h x p r -> forall k, p = [k] -> at_path h' x [k] r) /\ (at_path h' x p r -> forall k, p = [k] -> at_path h x [k] r).
Proof.
  intros Hm x p r. pose proof (one_more_ds c h h' Hm) as Hd. pose proof (one_more_ts c h h' Hm) as Ht. split; intros Ha k0;
    induction Ha; intros Hp; simplify_eq; try (eapply ap_wrap; [by apply Ht|by apply IHHa]); try (apply ap_last; by apply Hd).
Qed.
Lemma unshift_one_more h c e h' : cunshift h c e = Ok h' -> one_more c h h'.
Proof.
  unfold cunshift. destruct (elements h c) as [xs|] eqn:E; [|done]. intros [= <-]. split; [intros y Hy; by apply set_elements_other|].
  exists xs, e. unfold elements in E. unfold set_elements. destruct (h !! c) as [[]|] eqn:Ec; try done; injection E as ->; rewrite lookup_insert; eauto.
Qed.
Lemma shift_one_more h c e h' : cshift h c = Ok (h', e) -> one_more c h' h.
Proof.
  unfold cshift. destruct (elements h c) as [xs|] eqn:E; [|done]. destruct xs as [|y xs]; [done|]. simpl. intros [= <- <-].
  split; [intros z Hz; symmetry; by apply set_elements_other|]. exists xs, y. unfold elements in E. unfold set_elements.
  destruct (h !! c) as [[]|] eqn:Ec; try done; injection E as ->; rewrite lookup_insert; simpl; rewrite drop_0; eauto.
Qed.
Lemma one_more_reads c h h' : one_more c h h' -> forall l p p' x k r, moved h c l p p' x -> segments p -> segments p' -> gt ∉ k ->
  gets h l (joined (p ++ [k])) r <-> gets h' l (joined (p' ++ [k])) r.
Proof.
  intros Hm l p p' x k r Hw Hp Hp' Hk. assert (Hs : segments [k]) by (by apply Forall_singleton).
  rewrite (walk_compose_gets h l p x [k] r) by (eauto using moved_first; done).
  rewrite (walk_compose_gets h' l p' x [k] r) by (eauto using moved_second; done).
  rewrite !gets_joined by done. destruct (one_more_key c h h' Hm x [k] r) as [H1 H2]. naive_solver.
Qed.
(** Every path has its counterpart. *)
Lemma moved_exists h c l p x : (forall xs, collection_at h c xs -> Z.of_nat (length xs) < 2 ^ 63)%Z -> walk h l p x -> exists p', moved h c l p p' x.
Proof.
  intros Hlen. induction 1 as [l|l d p x Hl Hp Hw [p' IH]|l m k d p x Hl Hk Hat Hw [p' IH]|l m k c' xs s i d p x Hl Hk Hat Hs Hi Hw [p' IH]].
  - exists []. constructor.
  - exists p'. by eapply mv_wrap.
  - exists (k :: p'). by eapply mv_dataset.
  - destruct (decide (c' = c)) as [->|Hne].
    + exists (k :: itoa (Z.of_nat i + 1) :: p'). eapply mv_moved; [done|done|done|done| |done|done]. apply atoi_spec, atoi_itoa.
      specialize (Hlen xs Hat). apply lookup_lt_Some in Hi. unfold min_int, max_int. lia.
    + exists (k :: s :: p'). by eapply mv_element.
Qed.
Lemma unshift_reads h c e h' l p p' x k r : cunshift h c e = Ok h' -> moved h c l p p' x -> segments p -> segments p' -> gt ∉ k ->
  gets h l (joined (p ++ [k])) r <-> gets h' l (joined (p' ++ [k])) r.
Proof. intros H%unshift_one_more. by apply one_more_reads. Qed.
Lemma shift_reads h c e h' l p p' x k r : cshift h c = Ok (h', e) -> moved h' c l p p' x -> segments p -> segments p' -> gt ∉ k ->
  gets h' l (joined (p ++ [k])) r <-> gets h l (joined (p' ++ [k])) r.
Proof. intros H%shift_one_more. by apply one_more_reads. Qed.
Lemma unshift_element h c e h' l p p' x : cunshift h c e = Ok h' -> moved h c l p p' x -> walk h l p x /\ walk h' l p' x.
Proof. intros H%unshift_one_more Hm. split; [by eapply moved_first|by eapply moved_second]. Qed.
Lemma shift_element h c e h' l p p' x : cshift h c = Ok (h', e) -> moved h' c l p p' x -> walk h' l p x /\ walk h l p' x.
Proof. intros H%shift_one_more Hm. split; [by eapply moved_first|by eapply moved_second]. Qed.
(** The collection twice on the way: element 1 contains the collection again. *)
Definition ring : heap :=
  <[1%positive := ODs (<[B "c" := VRef 4]> ∅)]> (<[4%positive := OColl [Some 6%positive; Some 1%positive]]> (<[6%positive := ODs (<[B "k" := VStr (B "v")]> ∅)]> ∅)).
Lemma ring_case :
  moved ring 4 1 [B "c"; B "1"; B "c"; B "0"] [B "c"; B "2"; B "c"; B "1"] 6 /\
  dget 20 ring 1 (B "c>1>c>0>k") = Ok (Some (VStr (B "v"))) /\
  match cunshift ring 4 (Some 1%positive) with
  | Ok h' => dget 20 h' 1 (B "c>2>c>1>k") = Ok (Some (VStr (B "v"))) /\ dget 20 h' 1 (B "c>1>c>0>k") = Ok None /\
      match cshift h' 4 with Ok (h2, e) => e = Some 1%positive /\ dget 20 h2 1 (B "c>1>c>0>k") = Ok (Some (VStr (B "v"))) | _ => False end
  | _ => False
  end.
Proof.
  split; [|vm_compute; split_and!; reflexivity].
  eapply (mv_moved _ _ _ _ _ _ _ _ 1%nat); [reflexivity|reflexivity|left; reflexivity|by apply atoi_spec|by apply atoi_spec|reflexivity|].
  eapply (mv_moved _ _ _ _ _ _ _ _ 0%nat); [reflexivity|reflexivity|left; reflexivity|by apply atoi_spec|by apply atoi_spec|reflexivity|].
  constructor.
Qed.
