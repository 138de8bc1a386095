(** * Property theorems about reading and writing through paths (C104). *)
From Verif Require Import GoBase GoStrings DatasetModel DatasetSpec DatasetProofs2 PathSpec PathProofs PathProofs2.

(** ** C104 *)
(** A path that leads to a dataset can be cut there: the rest is read from that dataset. *)
Theorem C104_compose : forall h l p x q r, walk h l p x -> segments p -> segments q -> q <> [] ->
  gets h l (joined (p ++ q)) r <-> gets h x (joined q) r.
Proof. exact walk_compose_gets. Qed.
Print Assumptions C104_compose.
Theorem C104_walk_found : forall h l p x, walk h l p x -> segments p -> p <> [] -> gets h l (joined p) (Some (VRef x)).
Proof. exact walk_found_gets. Qed.
Print Assumptions C104_walk_found.
(** A dataset that is found for a path was reached by a walk, unless a key with the separator was met. *)
Theorem C104_found_walks : forall h l p x, segments p -> p <> [] -> gets h l (joined p) (Some (VRef x)) -> dataset_at h x ->
  walk h l p x \/ literally h l p (VRef x).
Proof. exact found_walk_gets. Qed.
Print Assumptions C104_found_walks.
(** What is set on the dataset at the end of a walk is found from its start, and what is removed is not. *)
Theorem C104_set : forall n h l p x k v h', walk h l p x -> segments p -> gt ∉ k -> dset n h x k v = Ok h' ->
  k ∉ p \/ ~ tc (child h) x x -> gets h' l (joined (p ++ [k])) (Some v).
Proof. exact set_seen. Qed.
Print Assumptions C104_set.
Theorem C104_del : forall n h l p x k h', walk h l p x -> segments p -> gt ∉ k -> ddel n h x k = Ok h' ->
  k ∉ p \/ ~ tc (child h) x x -> gets h' l (joined (p ++ [k])) None.
Proof. exact del_seen. Qed.
Print Assumptions C104_del.
(** Paths without the key are read as before, from any dataset. *)
Theorem C104_set_elsewhere : forall n h l k v h' y p r, dset n h l k v = Ok h' -> gt ∉ k -> p <> [] -> segments p -> k ∉ p ->
  gets h' y (joined p) r <-> gets h y (joined p) r.
Proof. exact set_elsewhere. Qed.
Print Assumptions C104_set_elsewhere.
Theorem C104_del_elsewhere : forall n h l k h' y p r, ddel n h l k = Ok h' -> gt ∉ k -> p <> [] -> segments p -> k ∉ p ->
  gets h' y (joined p) r <-> gets h y (joined p) r.
Proof. exact del_elsewhere. Qed.
Print Assumptions C104_del_elsewhere.
(** Push makes nothing disappear and changes nothing that was found; Pop makes nothing appear. *)
Theorem C104_push : forall h c d h' l key v, cpush h c d = Ok h' -> gets h l key (Some v) -> gets h' l key (Some v).
Proof. exact push_found. Qed.
Print Assumptions C104_push.
Theorem C104_pop : forall h c d h' l key v, cpop h c = Ok (h', d) -> gets h' l key (Some v) -> gets h l key (Some v).
Proof. exact pop_found. Qed.
Print Assumptions C104_pop.
(** Unshift and Shift renumber: what was found by a path is found by the path with the numbers in that collection larger (smaller)
    by one, at any place and as often as the path goes through the collection; every path has such a counterpart. *)
Theorem C104_unshift : forall h c e h' l p p' x k r, cunshift h c e = Ok h' -> moved h c l p p' x -> segments p -> segments p' -> ">"%char ∉ k ->
  gets h l (joined (p ++ [k])) r <-> gets h' l (joined (p' ++ [k])) r.
Proof. exact unshift_reads. Qed.
Print Assumptions C104_unshift.
Theorem C104_shift : forall h c e h' l p p' x k r, cshift h c = Ok (h', e) -> moved h' c l p p' x -> segments p -> segments p' -> ">"%char ∉ k ->
  gets h' l (joined (p ++ [k])) r <-> gets h l (joined (p' ++ [k])) r.
Proof. exact shift_reads. Qed.
Print Assumptions C104_shift.
Theorem C104_unshift_walk : forall h c e h' l p p' x, cunshift h c e = Ok h' -> moved h c l p p' x -> walk h l p x /\ walk h' l p' x.
Proof. exact unshift_element. Qed.
Print Assumptions C104_unshift_walk.
Theorem C104_shift_walk : forall h c e h' l p p' x, cshift h c = Ok (h', e) -> moved h' c l p p' x -> walk h' l p x /\ walk h l p' x.
Proof. exact shift_element. Qed.
Print Assumptions C104_shift_walk.
Theorem C104_renumbered : forall h c l p x, (forall xs, collection_at h c xs -> Z.of_nat (length xs) < 2 ^ 63)%Z -> walk h l p x -> exists p', moved h c l p p' x.
Proof. exact moved_exists. Qed.
Print Assumptions C104_renumbered.
(** A dataset stored under a key with the separator is found, but what it holds is not. *)
Theorem C104_literal_refuted : exists h l x v, gets h l (B "a>b") (Some (VRef x)) /\ dataset_at h x /\
  gets h x (B "k") (Some v) /\ gets h l (B "a>b>k") None.
Proof. exact literal_stops. Qed.
Print Assumptions C104_literal_refuted.
(** In a dataset that contains itself, a Set can cut the path it was reached by. *)
Theorem C104_cycle_refuted : exists n h l x v h', gets h l (B "a") (Some (VRef x)) /\ dataset_at h x /\
  dset n h x (B "a") v = Ok h' /\ gets h' l (B "a>a") None.
Proof. exact cycle_cuts. Qed.
Print Assumptions C104_cycle_refuted.

(** A dataset with a wrapped one inside and a collection in that one. *)
Definition C104_heap : heap :=
  <[1%positive := ODs (<[B "a" := VRef 2]> ∅)]> (<[2%positive := OTs (Some 3%positive)]> (<[3%positive := ODs (<[B "c" := VRef 4]> ∅)]>
  (<[4%positive := OColl [Some 6%positive; Some 5%positive]]> (<[5%positive := ODs (<[B "k" := VStr (B "old")]> ∅)]>
  (<[6%positive := ODs ∅]> ∅))))).
Example C104_case :
  walk C104_heap 1 [B "a"; B "c"; B "1"] 5 /\
  dget 20 C104_heap 1 (B "a>c>1>k") = Ok (Some (VStr (B "old"))) /\
  match dset 20 C104_heap 5 (B "k") (VStr (B "new")) with
  | Ok h' => dget 20 h' 1 (B "a>c>1>k") = Ok (Some (VStr (B "new"))) /\ dget 20 h' 1 (B "a>c>0") = Ok (Some (VRef 6))
  | _ => False
  end /\
  match cpush C104_heap 4 (Some 3%positive) with
  | Ok h' => dget 20 h' 1 (B "a>c>1>k") = Ok (Some (VStr (B "old"))) /\ dget 20 h' 1 (B "a>c>2>c>2") = Ok (Some (VRef 3))
  | _ => False
  end.
Proof.
  split; [|vm_compute; split_and!; reflexivity].
  eapply wk_dataset; [reflexivity|reflexivity|right; eexists; reflexivity|].
  eapply wk_wrap; [reflexivity|done|].
  eapply (wk_element _ _ _ _ _ _ _ 1%nat); [reflexivity|reflexivity|left; reflexivity| |reflexivity|constructor].
  apply C104_one.
Qed.
(** The collection twice on the way: element 1 contains the collection again. *)
Example C104_unshift_case :
  moved ring 4 1 [B "c"; B "1"; B "c"; B "0"] [B "c"; B "2"; B "c"; B "1"] 6 /\
  dget 20 ring 1 (B "c>1>c>0>k") = Ok (Some (VStr (B "v"))) /\
  match cunshift ring 4 (Some 1%positive) with
  | Ok h' => dget 20 h' 1 (B "c>2>c>1>k") = Ok (Some (VStr (B "v"))) /\ dget 20 h' 1 (B "c>1>c>0>k") = Ok None /\
      match cshift h' 4 with Ok (h2, e) => e = Some 1%positive /\ dget 20 h2 1 (B "c>1>c>0>k") = Ok (Some (VStr (B "v"))) | _ => False end
  | _ => False
  end.
Proof. exact ring_case. Qed.
