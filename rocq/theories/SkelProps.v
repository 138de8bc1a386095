(** * Property theorems about lock discipline (C19, C61-C65). *)
From Verif Require Import GoBase SkelModel SkelProofs Skeletons SkelInst.

(** C19: no race on the item map and the recency list, no re-entrance, no deadlock. *)
Theorem C19_cache_discipline : forall acts s,
  calls_of cache_methods acts -> exec start acts = Some s ->
  ~ race s Items /\ ~ race s Pile /\ (forall t, ~ self_block s t) /\ ~ stuck s.
Proof. exact cache_discipline. Qed.
Print Assumptions C19_cache_discipline.
Theorem C19_verify_no_deadlock : forall acts s,
  calls_of (k_Verify :: cache_methods) acts -> exec start acts = Some s ->
  ~ race s Pile /\ (forall t, ~ self_block s t) /\ ~ stuck s.
Proof. exact verify_discipline. Qed.
Print Assumptions C19_verify_no_deadlock.
Theorem C19_verify_race_refuted : exists acts s,
  calls_of (k_Verify :: cache_methods) acts /\ exec start acts = Some s /\
  at_read s 0 Items /\ at_write s 1 Items /\ race s Items.
Proof. exact verify_race. Qed.
Print Assumptions C19_verify_race_refuted.
(** Two threads inside their methods at the same time: one reads the map under the read lock, the other waits. *)
Example C19_case :
  let acts := [Begin 0 (a_path k_Count []); Go 0; Begin 1 (a_path k_Flush []); Go 1] in
  calls_of cache_methods acts /\
  match exec start acts with Some s => at_read s 0 Items /\ r_pending (s_lock s) = Some 1 | None => False end.
Proof. split; [schedule|]. vm_compute. split; [by eexists|done]. Qed.

(** C61 *)
Theorem C61_read_time_race_refuted : exists acts s,
  calls_of [k_Get] acts /\ exec start acts = Some s /\ race s EntryRtime.
Proof. exact rtime_race. Qed.
Print Assumptions C61_read_time_race_refuted.
Theorem C61_ttl_race_refuted : exists acts s,
  calls_of [k_Get; k_SetTTL] acts /\ exec start acts = Some s /\ race s EntryTtl.
Proof. exact ttl_race. Qed.
Print Assumptions C61_ttl_race_refuted.

(** C62 *)
Theorem C62_clone_race_refuted : exists acts s,
  calls_of (u_Clone :: collection_methods) acts /\ exec start acts = Some s /\ race s tt.
Proof. exact clone_race. Qed.
Print Assumptions C62_clone_race_refuted.

(** C63 *)
Theorem C63_name_race_refuted : exists acts s,
  calls_of [l_GetXML; l_SetName] acts /\ exec start acts = Some s /\ race s LName.
Proof. exact name_race. Qed.
Print Assumptions C63_name_race_refuted.
Theorem C63_load_race_refuted : exists acts s,
  calls_of [l_GetXML; l_LoadXMLString] acts /\ exec start acts = Some s /\ race s LName.
Proof. exact loadxml_race. Qed.
Print Assumptions C63_load_race_refuted.

(** C64 *)
Theorem C64_cycle_deadlock_refuted : exists acts s,
  calls_of (d_read_through 1 :: datasetts_methods) acts /\ exec start acts = Some s /\ stuck s /\ self_block s 0.
Proof. exact cycle_stuck. Qed.
Print Assumptions C64_cycle_deadlock_refuted.

(** C65 *)
Theorem C65_language_discipline : forall acts s,
  calls_of language_methods acts -> exec start acts = Some s ->
  ~ race s LEntries /\ ~ race s LStatus /\ (forall t, ~ self_block s t) /\ ~ stuck s.
Proof. exact language_discipline. Qed.
Print Assumptions C65_language_discipline.
Theorem C65_dataset_discipline : forall acts s,
  calls_of datasetts_methods acts -> exec start acts = Some s ->
  ~ race s tt /\ (forall t, ~ self_block s t) /\ ~ stuck s.
Proof. exact datasetts_discipline. Qed.
Print Assumptions C65_dataset_discipline.
Theorem C65_collection_discipline : forall acts s,
  calls_of collection_methods acts -> exec start acts = Some s ->
  ~ race s tt /\ (forall t, ~ self_block s t) /\ ~ stuck s.
Proof. exact collection_discipline. Qed.
Print Assumptions C65_collection_discipline.
Example C65_case :
  let acts := [Begin 0 (a_path u_GetData [true; false]); Go 0; Begin 1 (a_path u_Pop []); Go 1; Go 0; Go 0; Go 1] in
  calls_of collection_methods acts /\
  match exec start acts with Some s => at_read s 1 tt /\ s_code s 0 = [RLock; Rd tt; RUnlock] | None => False end.
Proof. split; [schedule|]. vm_compute. split; [by eexists|done]. Qed.
