(** * Remaining lemmas about reads and typed getters (C20, C26). *)
From Coq Require Import SpecFloat.
From Verif Require Import GoBase GoStrings GoStringsProofs DatasetModel DatasetSpec DatasetProofs DatasetProofs2 DatasetProofs3.
Local Open Scope Z_scope.

Lemma get_segments h l s segs r : Forall (fun w => ">"%char ∉ w) (s :: segs) ->
  (exists n, dget n h l (s ++ concat (map (cons ">"%char) segs)) = Ok r) <-> at_path h l (s :: segs) r.
Proof.
  intros Hf. rewrite <-join_concat, get_paths. change gt with ">"%char. by rewrite split_join.
Qed.
Lemma every_key_has_segments (key : bytes) : exists s segs, Forall (fun w => ">"%char ∉ w) (s :: segs) /\ key = s ++ concat (map (cons ">"%char) segs).
Proof.
  pose proof (split_on_pieces gt key) as Hp. pose proof (join_split gt key) as Hj. destruct (split_on gt key) as [|s segs] eqn:E.
  - by destruct (split_on_nonempty gt key).
  - exists s, segs. split; [done|]. rewrite <-join_concat. symmetry. exact Hj.
Qed.

Lemma get_dataset_found h l key d :
  returns (fun n => get_dataset n h l key) (d, true) <-> exists x, d = Some x /\ gets h l key (Some (VRef x)) /\ dataset_at h x.
Proof.
  unfold get_dataset. rewrite typed_found. split.
  - intros (v & Hg & Hc). destruct (as_dataset h v) as [x|] eqn:E; [|done]. injection Hc as <-. apply as_dataset_some in E as [-> E]. eauto.
  - intros (x & -> & Hg & Hx). exists (VRef x). split; [done|]. assert (as_dataset h (VRef x) = Some x) as -> by (by apply as_dataset_some). done.
Qed.
Lemma get_collection_found h l key c :
  returns (fun n => get_collection n h l key) (c, true) <-> exists x xs, c = Some x /\ gets h l key (Some (VRef x)) /\ collection_at h x xs.
Proof.
  unfold get_collection. rewrite typed_found. split.
  - intros (v & Hg & Hc). destruct (as_collection h v) as [x|] eqn:E; [|done]. injection Hc as <-. apply as_collection_some in E as [-> [xs E]]. eauto.
  - intros (x & xs & -> & Hg & Hx). exists (VRef x). split; [done|].
    assert (as_collection h (VRef x) = Some x) as -> by (apply as_collection_some; eauto). done.
Qed.
Lemma get_time_found h l key t : returns (fun n => get_time n h l key) (t, true) <-> gets h l key (Some (VTime t)).
Proof.
  unfold get_time. rewrite typed_found. split; [|by exists (VTime t)]. intros (v & Hg & Hc). destruct v; try done. by injection Hc as <-.
Qed.
Lemma get_slices_found h l key :
  (forall x, returns (fun n => get_strings n h l key) (x, true) <-> gets h l key (Some (VStrs x))) /\
  (forall x, returns (fun n => get_bools n h l key) (x, true) <-> gets h l key (Some (VBools x))) /\
  (forall x, returns (fun n => get_ints n h l key) (x, true) <-> gets h l key (Some (VInts x))) /\
  (forall x, returns (fun n => get_floats n h l key) (x, true) <-> gets h l key (Some (VFloats x))) /\
  (forall x, returns (fun n => get_times n h l key) (x, true) <-> gets h l key (Some (VTimes x))).
Proof.
  unfold get_strings, get_bools, get_ints, get_floats, get_times.
  split_and!; intros x; rewrite typed_found; (split; [intros (v & Hg & Hc); destruct v; try done; by injection Hc as <-|intros Hg; by eexists]).
Qed.
Lemma get_string_found F ord h l key t :
  returns (fun n => get_string F ord n h l key) (t, true) <->
  exists v, gets h l key (Some v) /\ (v = VNil /\ t = [] \/ v <> VNil /\ returns (fun n => sprint F ord n h v) t).
Proof.
  rewrite get_string_returns. split.
  - intros (r & Hg & H). destruct r as [v|]; [|done]. exists v. split; [done|].
    destruct (decide (v = VNil)) as [->|Hne] || assert (Hv : v = VNil \/ v <> VNil) by (destruct v; (by left) || (by right)).
    destruct Hv as [->|Hne]; [left; by injection H as ->|]. right. split; [done|].
    assert (Hx : exists t0, returns (fun n0 => sprint F ord n0 h v) t0 /\ (t, true) = (t0, true)) by (by destruct v).
    destruct Hx as (t0 & Ht & [= ->]). done.
  - intros (v & Hg & [[-> ->]|[Hne Ht]]); [by exists (Some VNil)|]. exists (Some v). split; [done|]. destruct v; try done; by exists t.
Qed.
(** A missing path: zero value and false, for every getter. *)
Lemma getters_missing F ord h l key : gets h l key None ->
  returns (fun n => get_dataset n h l key) (None, false) /\ returns (fun n => get_collection n h l key) (None, false) /\
  returns (fun n => get_string F ord n h l key) ([], false) /\ returns (fun n => get_bool n h l key) (false, false) /\
  returns (fun n => get_int F n h l key) (0, false) /\ returns (fun n => get_float n h l key) (S754_zero false, false) /\
  returns (fun n => get_time n h l key) (GoTime 0 0 0, false) /\ returns (fun n => get_strings n h l key) ([], false) /\
  returns (fun n => get_bools n h l key) ([], false) /\ returns (fun n => get_ints n h l key) ([], false) /\
  returns (fun n => get_floats n h l key) ([], false) /\ returns (fun n => get_times n h l key) ([], false).
Proof.
  intros Hg. split_and!; try (by apply typed_missing).
  rewrite get_string_returns. by exists None.
Qed.
(** A value of any other type is not converted. *)
Lemma slices_not_converted h l key v : gets h l key (Some v) ->
  ((forall x, v <> VStrs x) -> returns (fun n => get_strings n h l key) ([], false)) /\
  ((forall x, v <> VBools x) -> returns (fun n => get_bools n h l key) ([], false)) /\
  ((forall x, v <> VInts x) -> returns (fun n => get_ints n h l key) ([], false)) /\
  ((forall x, v <> VFloats x) -> returns (fun n => get_floats n h l key) ([], false)) /\
  ((forall x, v <> VTimes x) -> returns (fun n => get_times n h l key) ([], false)).
Proof.
  intros Hg. split_and!; intros Hv; apply typed_returns; exists (Some v); (split; [done|]); destruct v; try done; by edestruct Hv.
Qed.
(** Found implies found by Get. *)
Lemma getters_found F ord h l key :
  (forall x, returns (fun n => get_dataset n h l key) (x, true) -> exists v, gets h l key (Some v)) /\
  (forall x, returns (fun n => get_collection n h l key) (x, true) -> exists v, gets h l key (Some v)) /\
  (forall x, returns (fun n => get_string F ord n h l key) (x, true) -> exists v, gets h l key (Some v)) /\
  (forall x, returns (fun n => get_bool n h l key) (x, true) -> exists v, gets h l key (Some v)) /\
  (forall x, returns (fun n => get_int F n h l key) (x, true) -> exists v, gets h l key (Some v)) /\
  (forall x, returns (fun n => get_float n h l key) (x, true) -> exists v, gets h l key (Some v)).
Proof.
  split_and!; intros x; try (intros (v & Hg & _)%typed_found; by exists v). intros (v & Hg & _)%get_string_found. by exists v.
Qed.
(** The getters are functions: at most one answer. *)
Lemma typed_det {A} h l key (conv : value -> option A) zero x y :
  returns (fun n => typed n h l key conv zero) x -> returns (fun n => typed n h l key conv zero) y -> x = y.
Proof. rewrite !typed_returns. intros (r & Hr & ->) (r' & Hr' & ->). by rewrite (gets_det _ _ _ _ _ Hr Hr'). Qed.
Lemma getters_wrapper F ord h l d key : h !! l = Some (OTs (Some d)) ->
  (forall x, gets h l key x <-> gets h d key x) /\
  (forall x, returns (fun n => get_dataset n h l key) x <-> returns (fun n => get_dataset n h d key) x) /\
  (forall x, returns (fun n => get_collection n h l key) x <-> returns (fun n => get_collection n h d key) x) /\
  (forall x, returns (fun n => get_string F ord n h l key) x <-> returns (fun n => get_string F ord n h d key) x) /\
  (forall x, returns (fun n => get_bool n h l key) x <-> returns (fun n => get_bool n h d key) x) /\
  (forall x, returns (fun n => get_int F n h l key) x <-> returns (fun n => get_int F n h d key) x) /\
  (forall x, returns (fun n => get_float n h l key) x <-> returns (fun n => get_float n h d key) x) /\
  (forall x, returns (fun n => get_time n h l key) x <-> returns (fun n => get_time n h d key) x) /\
  (forall x, returns (fun n => get_strings n h l key) x <-> returns (fun n => get_strings n h d key) x) /\
  (forall x, returns (fun n => get_bools n h l key) x <-> returns (fun n => get_bools n h d key) x) /\
  (forall x, returns (fun n => get_ints n h l key) x <-> returns (fun n => get_ints n h d key) x) /\
  (forall x, returns (fun n => get_floats n h l key) x <-> returns (fun n => get_floats n h d key) x) /\
  (forall x, returns (fun n => get_times n h l key) x <-> returns (fun n => get_times n h d key) x).
Proof.
  intros Hl. split_and!; intros x; try (by apply typed_wrapper); [by apply gets_wrapper|by apply get_string_wrapper].
Qed.
(** Writes through the wrapper. *)
Lemma writes_wrapper h l d key v : h !! l = Some (OTs (Some d)) ->
  (forall h', returns (fun n => dset n h l key v) h' <-> returns (fun n => dset n h d key v) h') /\
  (forall h', returns (fun n => ddel n h l key) h' <-> returns (fun n => ddel n h d key) h').
Proof.
  intros Hl.
  assert (Hon : forall (f : loc -> gmap bytes value -> outcome heap) h', returns (fun n => on_dataset n h l f) h' <-> returns (fun n => on_dataset n h d f) h').
  { intros f h'. split; intros [n Hn].
    - destruct n as [|n]; [done|]. cbn [on_dataset] in Hn. rewrite Hl in Hn. by exists n.
    - exists (S n). cbn [on_dataset]. by rewrite Hl. }
  split; intros h'; apply Hon.
Qed.
