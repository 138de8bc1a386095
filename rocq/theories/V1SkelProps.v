(** * Property theorems about concurrent use of the cache of the root package, version 1 (C82). *)
From Verif Require Import GoBase SkelModel SkelProofs Skeletons SkelInst V1Skel.

(** C82 *)
Theorem C82_no_deadlock : forall acts s,
  calls_of v1_cache_methods acts -> exec start acts = Some s -> (forall t, ~ self_block s t) /\ ~ stuck s.
Proof. exact v1_no_deadlock. Qed.
Print Assumptions C82_no_deadlock.
Theorem C82_recency_without_get : forall acts s,
  calls_of [w_Set; w_Del; w_Count; w_Clean; w_Verify; w_Flush] acts -> exec start acts = Some s -> ~ race s Pile.
Proof. exact v1_pile_without_get. Qed.
Print Assumptions C82_recency_without_get.
Theorem C82_items_without_set : forall acts s,
  calls_of [w_Get; w_Del; w_Count; w_Clean; w_Flush] acts -> exec start acts = Some s -> ~ race s Items.
Proof. exact v1_items_without_set. Qed.
Print Assumptions C82_items_without_set.
Theorem C82_get_race_refuted : exists acts s,
  calls_of [w_Get] acts /\ exec start acts = Some s /\ at_write s 0 Pile /\ at_write s 1 Pile /\ race s Pile.
Proof. exact v1_get_race. Qed.
Print Assumptions C82_get_race_refuted.
Theorem C82_set_race_refuted : exists acts s,
  calls_of [w_Set] acts /\ exec start acts = Some s /\ at_read s 0 Items /\ at_write s 1 Items /\ race s Items.
Proof. exact v1_set_race. Qed.
Print Assumptions C82_set_race_refuted.
(** Count inside the lock; Flush of another thread waits. *)
Example C82_case :
  let acts := [Begin 0 (a_path w_Count []); Go 0; Go 0; Begin 1 (a_path w_Flush [])] in
  calls_of v1_cache_methods acts /\
  match exec start acts with Some s => at_read s 0 Items /\ step s (Go 1) = None | None => False end.
Proof. split; [schedule|]. vm_compute. split; [by eexists|done]. Qed.
