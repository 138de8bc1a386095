(** * Lock skeletons of the cache of version 1 (xcache.go).  Its lock is a sync.Mutex: only Lock and Unlock. *)
From Verif Require Import GoBase SkelModel SkelProofs Skeletons SkelInst.

(* xcache.go:79-91 is v2/xcache.go:95-107, [k_removeFromPile]; xcache.go:163-184 is [k_mClean]. *)
(* xcache.go:156-187 *)
Definition w_Clean : cc := seq [Lock : cc; k_mClean; Unlock : cc].
(* xcache.go:62-76: the length is read and the cleaning is called after the unlock *)
Definition w_Set : cc :=
  seq [Lock : cc; Rd Items : cc; Wr Items : cc; opt k_removeFromPile; Rd Pile : cc; Wr Pile : cc; Unlock : cc;
       opt (seq [Rd Items : cc; opt w_Clean])].
(* xcache.go:136-142, and 106-109, 119-122 *)
Definition w_Del : cc := seq [Lock : cc; Wr Items : cc; k_removeFromPile; Unlock : cc].
(* xcache.go:97-132: after a hit the recency list is changed without the lock (lines 127-128) *)
Definition w_Get : cc :=
  seq [Lock : cc; Rd Items : cc; Unlock : cc;
       opt (Alt w_Del (seq [Wr EntryRtime : cc; k_removeFromPile; Rd Pile : cc; Wr Pile : cc]))].
(* xcache.go:145-150 *)
Definition w_Count : cc := seq [Lock : cc; Rd Items : cc; Unlock : cc].
(* xcache.go:192-210 *)
Definition w_Verify : cc :=
  seq [w_Clean; opt (seq [Star (seq [Rd Items : cc; opt (seq [Lock : cc; Wr Items : cc; Unlock : cc])]); Rd Items : cc])].
(* xcache.go:214-219 *)
Definition w_Flush : cc := seq [Lock : cc; Wr Items : cc; Unlock : cc].
Definition v1_cache_methods : list cc := [w_Set; w_Get; w_Del; w_Count; w_Clean; w_Verify; w_Flush].

Lemma v1_no_deadlock acts s :
  calls_of v1_cache_methods acts -> exec start acts = Some s -> (forall t, ~ self_block s t) /\ ~ stuck s.
Proof. intros Hc He. destruct (discipline (fun _ => false) v1_cache_methods acts s) as (_ & H2 & H3); [checked|done|done|done]. Qed.
(** Without Get the recency list is protected. *)
Lemma v1_pile_without_get acts s :
  calls_of [w_Set; w_Del; w_Count; w_Clean; w_Verify; w_Flush] acts -> exec start acts = Some s -> ~ race s Pile.
Proof.
  intros Hc He. destruct (discipline pile_guarded [w_Set; w_Del; w_Count; w_Clean; w_Verify; w_Flush] acts s) as (H1 & _); [checked|done|done|].
  by apply H1.
Qed.
(** Without Set and Verify the items are protected. *)
Definition items_guarded (x : cvar) : bool := match x with Items => true | _ => false end.
Lemma v1_items_without_set acts s :
  calls_of [w_Get; w_Del; w_Count; w_Clean; w_Flush] acts -> exec start acts = Some s -> ~ race s Items.
Proof.
  intros Hc He. destruct (discipline items_guarded [w_Get; w_Del; w_Count; w_Clean; w_Flush] acts s) as (H1 & _); [checked|done|done|].
  by apply H1.
Qed.

(** Two Gets of present keys, both at their write of the recency list. *)
Definition v1_get_acts : list (act cvar) :=
  let p := a_path w_Get [true; false; false; false] in
  [Begin 0 p; Go 0; Go 0; Go 0; Go 0; Go 0; Go 0; Begin 1 p; Go 1; Go 1; Go 1; Go 1; Go 1; Go 1].
Lemma v1_get_race : exists acts s,
  calls_of [w_Get] acts /\ exec start acts = Some s /\ at_write s 0 Pile /\ at_write s 1 Pile /\ race s Pile.
Proof.
  exists v1_get_acts.
  assert (H : match exec start v1_get_acts with Some s => at_write s 0 Pile /\ at_write s 1 Pile | None => False end).
  { vm_compute. split; eexists; reflexivity. }
  destruct (exec start v1_get_acts) as [s|]; [|done]. destruct H as [H1 H2]. exists s. split_and!; try done.
  - unfold v1_get_acts. cbv zeta. schedule.
  - exists 0, 1. auto.
Qed.
(** One Set at its read of the number of items, another at its write. *)
Definition v1_set_acts : list (act cvar) :=
  [Begin 0 (a_path w_Set [false; true; false]); Go 0; Go 0; Go 0; Go 0; Go 0; Go 0; Go 0;
   Begin 1 (a_path w_Set [false; false]); Go 1; Go 1; Go 1].
Lemma v1_set_race : exists acts s,
  calls_of [w_Set] acts /\ exec start acts = Some s /\ at_read s 0 Items /\ at_write s 1 Items /\ race s Items.
Proof.
  exists v1_set_acts.
  assert (H : match exec start v1_set_acts with Some s => at_read s 0 Items /\ at_write s 1 Items | None => False end).
  { vm_compute. split; eexists; reflexivity. }
  destruct (exec start v1_set_acts) as [s|]; [|done]. destruct H as [H1 H2]. exists s. split_and!; try done.
  - unfold v1_set_acts. schedule.
  - exists 1, 0. auto.
Qed.
