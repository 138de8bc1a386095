(** * The discipline holds for the methods of xcore. *)
From Verif Require Import GoBase SkelModel SkelProofs Skeletons.

Ltac checked := repeat (apply Forall_cons; split; [vm_compute; reflexivity|]); apply Forall_nil; exact Logic.I.
Lemma cache_discipline acts s :
  calls_of cache_methods acts -> exec start acts = Some s ->
  ~ race s Items /\ ~ race s Pile /\ (forall t, ~ self_block s t) /\ ~ stuck s.
Proof.
  intros Hc He. destruct (discipline cache_guarded cache_methods acts s) as (H1 & H2 & H3); [checked|done|done|].
  split_and!; try done; by apply H1.
Qed.
(** Verify included: only the item map is unprotected. *)
Definition pile_guarded (x : cvar) : bool := match x with Pile => true | _ => false end.
Lemma verify_discipline acts s :
  calls_of (k_Verify :: cache_methods) acts -> exec start acts = Some s ->
  ~ race s Pile /\ (forall t, ~ self_block s t) /\ ~ stuck s.
Proof.
  intros Hc He. destruct (discipline pile_guarded (k_Verify :: cache_methods) acts s) as (H1 & H2 & H3); [checked|done|done|].
  split_and!; try done; by apply H1.
Qed.
Lemma language_discipline acts s :
  calls_of language_methods acts -> exec start acts = Some s ->
  ~ race s LEntries /\ ~ race s LStatus /\ (forall t, ~ self_block s t) /\ ~ stuck s.
Proof.
  intros Hc He. destruct (discipline language_guarded language_methods acts s) as (H1 & H2 & H3); [checked|done|done|].
  split_and!; try done; by apply H1.
Qed.
Lemma datasetts_discipline acts s :
  calls_of datasetts_methods acts -> exec start acts = Some s ->
  ~ race s tt /\ (forall t, ~ self_block s t) /\ ~ stuck s.
Proof.
  intros Hc He. destruct (discipline (fun _ => true) datasetts_methods acts s) as (H1 & H2 & H3); [checked|done|done|].
  split_and!; try done; by apply H1.
Qed.
Lemma collection_discipline acts s :
  calls_of collection_methods acts -> exec start acts = Some s ->
  ~ race s tt /\ (forall t, ~ self_block s t) /\ ~ stuck s.
Proof.
  intros Hc He. destruct (discipline (fun _ => true) collection_methods acts s) as (H1 & H2 & H3); [checked|done|done|].
  split_and!; try done; by apply H1.
Qed.
