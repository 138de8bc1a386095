(** * Property theorems: Verify while other goroutines use the cache (C114). *)
From Verif Require Import GoBase CacheModel CacheConc CacheConcSpec CacheConcWitness SettingsSpec SettingsProofs VerifyProofs.
Local Open Scope Z_scope.

(** C114 *)
Theorem C114_leaves_accepted {D : Type} (dnil : D) mx ex acts g tr t f n g' :
  exec dnil (cinit mx ex) acts = Some (g, tr) ->
  cstep dnil g (ARet t) = Some (g', LRet t (CVerify (Some f)) (RInt n)) ->
  exists b trb qs, during dnil (cinit mx ex) t (CVerify (Some f)) acts tr b trb qs /\
    forall k x, (forall l s, (l, s) ∈ trb -> h_items s !! k = Some x) ->
      exists e, h_heap (g_shared g) !! x = Some e /\ (t, k, e_ctime e, Yes) ∈ qs.
Proof. exact (verify_leaves dnil mx ex acts g tr t f n g'). Qed.
Print Assumptions C114_leaves_accepted.
Theorem C114_deletes_rejected {D : Type} (dnil : D) mx ex acts g tr t f p i g' l k y :
  exec dnil (cinit mx ex) acts = Some (g, tr) -> g_threads g t = Some (CVerify (Some f), p) ->
  cstep dnil g (AStep t i) = Some (g', l) ->
  h_items (g_shared g) !! k = Some y -> h_items (g_shared g') !! k = None ->
  exists b trb qs, during dnil (cinit mx ex) t (CVerify (Some f)) acts tr b trb qs /\
    (((forall i', AStep t i' ∉ b) /\ exists e, h_heap (g_shared g) !! y = Some e /\
        rd_exp1 (reads (g_shared g) i) <> 0 /\ e_ctime e + rd_exp2 (reads (g_shared g) i) k < in_now i k) \/
     exists l0 s0 x e, (l0, s0) ∈ trb /\ h_items s0 !! k = Some x /\ h_heap s0 !! x = Some e /\ (t, k, e_ctime e, No) ∈ qs).
Proof. exact (verify_deletes dnil mx ex acts g tr t f p i g' l k y). Qed.
Print Assumptions C114_deletes_rejected.
(** If the validator is a function of key and creation time, its answers are those of the function. *)
Theorem C114_function {D : Type} (dnil : D) mx ex acts g tr t c b trb qs f :
  exec dnil (cinit mx ex) acts = Some (g, tr) -> during dnil (cinit mx ex) t c acts tr b trb qs ->
  (c = CVerify (Some f) \/ exists k, c = CGet k (Some f)) -> (forall i, AStep t i ∈ b -> in_says i = None) ->
  forall k z w, (t, k, z, w) ∈ qs -> w = if f k z then Yes else No.
Proof. exact (during_function dnil (cinit mx ex) acts g tr t c b trb qs f). Qed.
Print Assumptions C114_function.
(** Thread 1 verifies (entries created before 5 are rejected): "a" is rejected, "b" accepted; "c", set by thread 0 after
    the loop has begun, need not be visited. *)
Definition C114_acts : list (action Z) :=
  let at_ k := Input 1 9 9 (fun _ => 9) (Some (B k)) None None in
  [AInv 0 (CSet (B "a") 1); AStep 0 (in_ 1 0); ARet 0; AInv 0 (CSet (B "b") 2); AStep 0 (in_ 2 7); ARet 0;
   AInv 1 (CVerify (Some newer)); AStep 1 (in_ 1 9); AStep 1 (in_ 1 9);
   AInv 0 (CSet (B "c") 3); AStep 0 (in_ 3 9); ARet 0;
   AStep 1 (at_ "a"); AStep 1 (in_ 1 9); AStep 1 (in_ 1 9); AStep 1 (at_ "b"); AStep 1 (in_ 1 9); AStep 1 (in_ 1 9); ARet 1;
   AInv 0 CCount; AStep 0 (in_ 1 9); ARet 0].
Example C114_case :
  returns C114_acts (cinit 0 0) = [(0%nat, RUnit); (0%nat, RUnit); (0%nat, RUnit); (1%nat, RInt 1); (0%nat, RInt 2)] /\
  asked 0 (cinit 0 0) C114_acts = [(1%nat, B "a", 0, No); (1%nat, B "b", 7, Yes)] /\
  (* the loop cannot end before "b" was visited *)
  exec 0 (cinit 0 0) (take 15 C114_acts ++ [AStep 1 (in_ 1 9)]) = None.
Proof. vm_compute. done. Qed.
