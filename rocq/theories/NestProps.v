(** * Property theorems: validators that call the cache, whatever they do (C115). *)
From Verif Require Import GoBase CacheModel CacheConc CacheConcProofs SettingsSpec NestSpec NestProofs NestProofs2.
Local Open Scope Z_scope.

(** C115 *)
Theorem C115_left {D : Type} (dnil : D) F mx ex acts0 g0 tr0 d v acts g1 n :
  exec dnil (cinit mx ex) acts0 = Some (g0, tr0) -> call_runs dnil F d (CVerify v) g0 acts g1 (RInt n) ->
  exists tr, exec dnil g0 acts = Some (g1, tr) /\
    forall k x, (forall l s, (l, s) ∈ tr -> h_items s !! k = Some x) ->
      exists e, h_heap (g_shared g1) !! x = Some e /\ ran dnil F d g0 acts k (e_ctime e) Yes.
Proof. exact (nest_verify dnil F mx ex acts0 g0 tr0 d v acts g1 n). Qed.
Print Assumptions C115_left.
Theorem C115_no_panic {D : Type} (dnil : D) F mx ex acts0 g0 tr0 d c acts g1 r :
  (forall k z, quiet (F k z)) -> Forall action_ok acts0 -> exec dnil (cinit mx ex) acts0 = Some (g0, tr0) ->
  legal c -> call_runs dnil F d c g0 acts g1 r ->
  r <> RPanic /\ forall k, is_Some (h_items (g_shared g1) !! k) -> k ∈ h_pile (g_shared g1).
Proof. exact (nest_no_panic dnil F mx ex acts0 g0 tr0 d c acts g1 r). Qed.
Print Assumptions C115_no_panic.
Theorem C115_endless {D : Type} (dnil dv : D) f mx ex acts0 g0 tr0 n :
  exec dnil (cinit mx ex) acts0 = Some (g0, tr0) -> h_max (g_shared g0) = 0 -> h_expire (g_shared g0) = 0 -> h_items (g_shared g0) <> ∅ ->
  g_threads g0 0%nat = None -> g_threads g0 1%nat = None ->
  exists g1 acts g', cstep dnil g0 (AInv 0 (CVerify (Some f))) = Some (g1, LInv 0 (CVerify (Some f))) /\
    steps_run dnil (fun k _ => Do (CSet (k ++ B "x") dv) (fun _ => Says true)) 0 g1 acts g' /\ (n <= length acts)%nat /\
    cstep dnil g' (ARet 0) = None.
Proof. exact (verify_endless dnil dv f mx ex acts0 g0 tr0 n). Qed.
Print Assumptions C115_endless.
Theorem C115_reloaded_lost_refuted : exists g0 tr0 acts g1,
  exec 0 (cinit 0 0) reload_store = Some (g0, tr0) /\
  call_runs 0 reloads 0 (CVerify (Some (fun _ _ => true))) g0 acts g1 (RInt 1) /\
  h_items (g_shared g1) = ∅ /\ h_heap (g_shared g1) !! 3%positive = Some (Entry 9 9 0 20) /\ reloads (B "b") 9 = Says true.
Proof. exact reload_lost. Qed.
Print Assumptions C115_reloaded_lost_refuted.
(** The validators of the example are within reach of the theorems. *)
Example C115_case : (forall k z, quiet (reloads k z)) /\ Forall action_ok reload_store.
Proof.
  split; [|repeat constructor]. intros k z. unfold reloads. destruct (decide _); [|constructor].
  constructor; [done|intros _]. constructor; [done|intros _]. constructor.
Qed.
(** The premises of C115_endless hold after one Set. *)
Example C115_case_endless : match exec 0 (cinit 0 0) (take 3 reload_store) with
  | Some (g0, _) => h_max (g_shared g0) = 0 /\ h_expire (g_shared g0) = 0 /\ is_Some (h_items (g_shared g0) !! B "a") /\
      g_threads g0 0%nat = None /\ g_threads g0 1%nat = None
  | None => False end.
Proof. vm_compute. split_and!; try done. by eexists. Qed.
