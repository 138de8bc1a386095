(** * Property theorems about templates executed by several goroutines (C80). *)
From Verif Require Import GoBase SkelModel SkelProofs Skeletons ExecSkel ExecSkelProofs.

Theorem C80_execute_no_race : forall owner acts s,
  calls_by (executing owner) acts -> exec start acts = Some s -> forall x, ~ race s x.
Proof. exact executing_no_race. Qed.
Print Assumptions C80_execute_no_race.
Theorem C80_counter_race_refuted : exists acts s,
  calls_by (fun _ c => c = x_Execute 0) acts /\ exec start acts = Some s /\
  at_write s 0 (Data 0) /\ at_read s 1 (Data 0) /\ race s (Data 0).
Proof. exact counter_race. Qed.
Print Assumptions C80_counter_race_refuted.
Theorem C80_clone_race_refuted : exists acts s,
  calls_by (fun _ c => c = x_Clone \/ c = x_GetTemplate) acts /\ exec start acts = Some s /\
  at_write s 0 Tree /\ at_read s 1 Tree /\ race s Tree.
Proof. exact clone_tree_race. Qed.
Print Assumptions C80_clone_race_refuted.
(** Thread 0 loops over its own data, thread 1 over its own, both inside Execute; thread 2 reads shared data. *)
Example C80_case :
  let acts := [Begin 0 (a_path (x_Execute 0) [true; true; true; false; false; false]); Go 0;
               Begin 1 (a_path (x_Execute 1) [true; false; true; false]);
               Begin 2 (a_path (x_Execute_loop_free 2) [true; false; false])] in
  calls_by (executing (fun n => match n with 0 => Some 0 | 1 => Some 1 | _ => None end)) acts /\
  match exec start acts with
  | Some s => at_write s 0 (Data 0) /\ at_read s 1 (Data 1) /\ at_read s 2 (Data 2)
  | None => False
  end.
Proof.
  split; [|vm_compute; split_and!; by eexists].
  apply Forall_cons. split; [exists (x_Execute 0); split; [right; right; left; by exists 0|by apply a_path_path]|].
  apply Forall_cons. split; [done|].
  apply Forall_cons. split; [exists (x_Execute 1); split; [right; right; left; by exists 1|by apply a_path_path]|].
  apply Forall_cons. split; [exists (x_Execute_loop_free 2); split; [right; right; right; by exists 2|by apply a_path_path]|].
  by apply Forall_nil.
Qed.
