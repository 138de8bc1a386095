(** * The typed reads of version 1 against those of version 2. *)
From Coq Require Import SpecFloat.
From Verif Require Import GoBase GoStrings DatasetModel DatasetSpec DatasetProofs DatasetProofs2 DatasetProofs3 V1Dataset.
Local Open Scope Z_scope.

Lemma typed_of {A} (h : heap) l key r (conv : value -> option A) zero x : gets h l key r ->
  returns (fun n => typed n h l key conv zero) x <->
  x = match r with Some v => match conv v with Some a => (a, true) | None => (zero, false) end | None => (zero, false) end.
Proof.
  intros Hg. rewrite typed_returns. split.
  - intros (r' & Hr & ->). by rewrite <-(gets_det _ _ _ _ _ Hg Hr).
  - intros ->. by exists r.
Qed.
Section S.
  Context (F : golib).
  Lemma v1_same h l key r : gets h l key r -> (forall t, r <> Some (VTime t)) ->
    (r <> Some VNil -> forall b, returns (fun n => get_bool1 n h l key) b <-> returns (fun n => get_bool n h l key) b) /\
    (forall i, returns (fun n => get_int1 F n h l key) i <-> returns (fun n => get_int F n h l key) i) /\
    (forall f, returns (fun n => get_float1 n h l key) f <-> returns (fun n => get_float n h l key) f).
  Proof.
    intros Hg Ht. unfold get_bool1, get_bool, get_int1, get_int, get_float1, get_float.
    split; [|split]; intros; rewrite !(typed_of _ _ _ _ _ _ _ Hg); destruct r as [v|]; try done;
      destruct v; try done; by destruct (Ht t).
  Qed.
  Lemma v1_nil h l key : gets h l key (Some VNil) ->
    returns (fun n => get_bool1 n h l key) (false, false) /\ returns (fun n => get_bool n h l key) (false, true).
  Proof. intros Hg. unfold get_bool1, get_bool. by rewrite !(typed_of _ _ _ _ _ _ _ Hg). Qed.
  Lemma v1_time h l key t : gets h l key (Some (VTime t)) ->
    returns (fun n => get_bool1 n h l key) (true, true) /\ returns (fun n => get_int1 F n h l key) (0, false) /\
    returns (fun n => get_float1 n h l key) (S754_zero false, false) /\
    returns (fun n => get_bool n h l key) (bool_decide (~ (t_sec t = 0 /\ t_nsec t = 0)), true) /\
    (exists z, returns (fun n => get_int F n h l key) (z, true)) /\ (exists f, returns (fun n => get_float n h l key) (f, true)).
  Proof.
    intros Hg. unfold get_bool1, get_bool, get_int1, get_int, get_float1, get_float.
    rewrite !(typed_of _ _ _ _ _ _ _ Hg). do 3 (split; [done|]). split; [|split].
    - cbn [bool_of]. unfold is_zero_time. by rewrite bool_decide_not.
    - eexists. by rewrite (typed_of _ _ _ _ _ _ _ Hg).
    - eexists. by rewrite (typed_of _ _ _ _ _ _ _ Hg).
  Qed.
End S.
(** GetCollection of a plain collection, in terms of the elements and of GetData. *)
Lemma v1_collection n h c xs key r : h !! c = Some (OColl xs) -> cget_data n h c key = Ok r ->
  (cget_collection1 n h c key = Panic <-> exists v, r = Some v /\ ~ exists x ys, v = VRef x /\ collection_at h x ys) /\
  (cget_collection1 n h c key <> Panic -> cget_collection1 n h c key = cget_collection n h c key).
Proof.
  intros Hc Hr. unfold cget_collection1, cget_collection. rewrite Hr. destruct r as [v|]; cbn.
  - destruct (as_collection h v) as [y|] eqn:E; (split; [split|]); try done.
    + intros (w & [= <-] & Hw). destruct Hw. unfold as_collection in E. destruct v; try done. unfold collection_at.
      destruct (h !! l) as [[| |ys|ys]|] eqn:El; try done; exists l, ys; auto.
    + intros _. exists v. split; [done|]. intros (x & ys & -> & [Hx|Hx]); unfold as_collection in E; by rewrite Hx in E.
  - split; [split|]; try done. by intros (w & ? & _).
Qed.
Definition v1_heap : heap := <[1%positive := ODs {[B "k" := VInt KInt 3]}]> {[2%positive := OColl [Some 1%positive]]}.
Lemma v1_collection_panics : cget_collection1 5 v1_heap 2 (B "k") = Panic /\ cget_collection 5 v1_heap 2 (B "k") = Ok None.
Proof. by vm_compute. Qed.
