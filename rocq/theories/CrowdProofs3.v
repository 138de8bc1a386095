(** * Clients that load on demand: an example (C131). *)
From Verif Require Import GoBase CacheModel CacheSpec CacheConc CacheConcWitness CrowdSpec.
Local Open Scope Z_scope.

(** The value of a key is its length and 1. Clients 0 and 1 ask at the same time and both load; client 1 asks again while client 0
    is about to store, client 2 when it has. *)
Definition length_value (k : bytes) : Z := 1 + Z.of_nat (length k).
Definition crowd_acts : list (action Z) :=
  let k := B "news" in
  [AInv 0 (CGet k None); AInv 1 (CGet k None); AStep 1 (in_ 1 0); AStep 0 (in_ 1 0); ARet 1; ARet 0;
   AInv 0 (CSet k 5); AInv 1 (CSet k 5); AStep 1 (in_ 1 1); ARet 1;
   AInv 1 (CGet k None); AStep 1 (in_ 1 2); AStep 0 (in_ 2 2); AStep 1 (in_ 1 2); AStep 1 (in_ 1 2); AStep 1 (in_ 1 2); AStep 1 (in_ 1 3); AStep 1 (in_ 1 3); ARet 1; ARet 0;
   AInv 2 (CGet k (Some (fun _ _ => true))); AStep 2 (in_ 1 4); AStep 2 (in_ 1 4); AStep 2 (in_ 1 4); AStep 2 (in_ 1 4); AStep 2 (in_ 1 4); AStep 2 (in_ 1 4); ARet 2].
Definition crowd_labels : list (label Z) := match exec 0 (cinit 0 0) crowd_acts with Some (_, tr) => tr.*1 | None => [] end.
Ltac found_at i := match goal with |- exists a1 v x e a2, ?L = _ /\ _ =>
  exists (take i L), None, 0, false, (drop (S i) L); split_and!; [reflexivity|reflexivity|repeat constructor; simpl; first [lia|tauto]] end.
Lemma crowd_case : Forall client_action crowd_acts /\ on_demand (Z.eqb 0) length_value crowd_labels /\
  loaders (B "news") crowd_labels = [0%nat; 1%nat] /\
  returns crowd_acts (cinit 0 0) = [(1%nat, RGet 0 false); (0%nat, RGet 0 false); (1%nat, RUnit); (1%nat, RGet 5 false); (0%nat, RUnit); (2%nat, RGet 5 false)].
Proof.
  split_and!.
  - repeat constructor; done.
  - intros a t k d b H. vm_compute in H.
    repeat (destruct a as [|? a]; simpl in H; [first [discriminate H|injection H as <- <- <- _; split; [reflexivity|first [found_at 4%nat|found_at 5%nat]]]|
      first [discriminate H|injection H as <- H]]).
  - vm_compute. done.
  - vm_compute. done.
Qed.
