(** * Property theorems about XCache used by several threads (C16-C18). *)
From Verif Require Import GoBase CacheModel CacheConc CacheConcProofs CacheConcSpec CacheConcProofs2 CacheConcProofs3 CacheConcWitness.
Local Open Scope Z_scope.

(** C16 *)
Theorem C16_concurrent_safety : forall (D : Type) (dnil : D) mx ex acts g tr,
  Forall action_ok acts -> exec dnil (cinit mx ex) acts = Some (g, tr) ->
  (forall k, is_Some (h_items (g_shared g) !! k) -> k ∈ h_pile (g_shared g)) /\
  forall t, sound_for t acts -> (forall c, g_threads g t <> Some (c, Exit RPanic)) /\ Forall (fun ls => forall c, ls.1 <> LRet t c RPanic) tr.
Proof. exact @conc_safe. Qed.
Print Assumptions C16_concurrent_safety.
(** Two threads, the second overtakes the first inside a Get, then an eviction of all. *)
Definition C16_acts : list (action Z) :=
  [AInv 0 (CSet (B "k") 1); AStep 0 (in_ 1 0); ARet 0; AInv 0 (CGet (B "k") None); AStep 0 (in_ 1 1);
   AInv 1 (CSet (B "j") 2); AStep 1 (in_ 2 1); ARet 1; AStep 0 (in_ 1 1); AStep 0 (in_ 1 1); AStep 0 (in_ 1 1);
   AInv 1 (CClean 100); AStep 1 (in_ 2 2); ARet 1; AStep 0 (in_ 1 3); AStep 0 (in_ 1 3); ARet 0].
Example C16_case : Forall action_ok C16_acts /\
  returns C16_acts (cinit 0 0) = [(0%nat, RUnit); (1%nat, RUnit); (1%nat, RInt 2); (0%nat, RGet 1 false)].
Proof. split; [repeat constructor; vm_compute; discriminate|vm_compute; done]. Qed.
(** The validator of thread 1 panics inside Get; the cache goes on answering. *)
Example C16_case_panic :
  returns [AInv 0 (CSet (B "k") 1); AStep 0 (in_ 1 0); ARet 0; AInv 1 (CGet (B "k") (Some (fun _ _ => true))); AStep 1 (in_ 1 1); AStep 1 (in_ 1 1);
           AStep 1 (Input 1 1 1 (fun _ => 1) None None (Some Crash)); ARet 1; AInv 1 CCount; AStep 1 (in_ 1 2); ARet 1; AInv 0 CCount; AStep 0 (in_ 1 2); ARet 0] (cinit 0 0)
  = [(0%nat, RUnit); (1%nat, RPanic); (1%nat, RInt 1); (0%nat, RInt 1)].
Proof. vm_compute. done. Qed.

(** C17: [inside t c tr tr2] says that [tr2] is the part of the trace since thread [t]
    started the call [c]; the answer is the value current in a state of that part. *)
Theorem C17_hit_was_current : forall (D : Type) (dnil : D) mx ex acts g tr t k v d g',
  exec dnil (cinit mx ex) acts = Some (g, tr) ->
  cstep dnil g (ARet t) = Some (g', LRet t (CGet k v) (RGet d false)) ->
  exists tr2, inside t (CGet k v) tr tr2 /\
    ((exists sj, (LTau t, sj) ∈ tr2 /\ current sj k d) \/
     (d = dnil /\ exists sj, (LTau t, sj) ∈ tr2 /\ h_items sj !! k = None)).
Proof. exact @conc_get_hit. Qed.
Print Assumptions C17_hit_was_current.
Theorem C17_invalid_was_present : forall (D : Type) (dnil : D) mx ex acts g tr t k v d g',
  exec dnil (cinit mx ex) acts = Some (g, tr) ->
  cstep dnil g (ARet t) = Some (g', LRet t (CGet k v) (RGet d true)) ->
  d = dnil /\ exists tr2 sj, inside t (CGet k v) tr tr2 /\ (LTau t, sj) ∈ tr2 /\ is_Some (h_items sj !! k).
Proof. exact @conc_get_invalid. Qed.
Print Assumptions C17_invalid_was_present.
(** Thread 0 returns the old value although thread 1 has replaced it meanwhile. *)
Example C17_case : returns
  [AInv 0 (CSet (B "k") 1); AStep 0 (in_ 1 0); ARet 0; AInv 0 (CGet (B "k") None); AStep 0 (in_ 1 1);
   AInv 1 (CSet (B "k") 2); AStep 1 (in_ 2 1); ARet 1; AStep 0 (in_ 1 1); AStep 0 (in_ 1 1); AStep 0 (in_ 1 1);
   AStep 0 (in_ 1 3); AStep 0 (in_ 1 3); ARet 0] (cinit 0 0)
  = [(0%nat, RUnit); (1%nat, RUnit); (0%nat, RGet 1 false)].
Proof. vm_compute. done. Qed.

(** The same without looking at the state: the value is the one last Set, in the order of the
    first steps of the calls, at some moment of the Get. *)
Theorem C17_hit_was_last_set {D : Type} (dnil : D) mx ex acts g tr t k v d g' :
  exec dnil (cinit mx ex) acts = Some (g, tr) ->
  cstep dnil g (ARet t) = Some (g', LRet t (CGet k v) (RGet d false)) ->
  exists pre, within t (CGet k v) acts pre /\ (d = dnil \/ last_set k (firsts pre) = Some d).
Proof. exact (hit_was_last_set dnil mx ex acts g tr t k v d g'). Qed.
Print Assumptions C17_hit_was_last_set.
Definition race : list (action Z) :=
  [AInv 0 (CSet (B "k") 1); AStep 0 (in_ 1 0); ARet 0; AInv 0 (CGet (B "k") None); AStep 0 (in_ 1 1);
   AInv 1 (CSet (B "k") 2); AStep 1 (in_ 2 1); ARet 1; AStep 0 (in_ 1 1); AStep 0 (in_ 1 1); AStep 0 (in_ 1 1);
   AStep 0 (in_ 1 3); AStep 0 (in_ 1 3)].
Example C17_hit_was_last_set_case :
  firsts race = [(0%nat, CSet (B "k") 1); (0%nat, CGet (B "k") None); (1%nat, CSet (B "k") 2)] /\
  last_set (B "k") (firsts (take 5 race)) = Some 1 /\ last_set (B "k") (firsts race) = Some 2 /\
  returns (race ++ [ARet 0%nat]) (cinit 0 0) = [(0%nat, RUnit); (1%nat, RUnit); (0%nat, RGet 1 false)].
Proof. vm_compute. done. Qed.

(** C76: without limits and expiry, an atomic map. *)
Theorem C76_atomic_map {D : Type} (dnil : D) acts g tr :
  exec dnil (cinit 0 0) acts = Some (g, tr) -> Forall map_action acts ->
  forall t, received t tr `prefix_of` answers_of t (atomic_run dnil ∅ (firsts acts)).2 /\
    (g_threads g t = None -> received t tr = answers_of t (atomic_run dnil ∅ (firsts acts)).2).
Proof. exact (atomic_map dnil acts g tr). Qed.
Print Assumptions C76_atomic_map.
Example C76_case :
  answers_of 0 (atomic_run 0 ∅ (firsts (race ++ [ARet 0%nat]))).2 = [RUnit; RGet 1 false] /\
  answers_of 1 (atomic_run 0 ∅ (firsts (race ++ [ARet 0%nat; AInv 1 CCount; AStep 1 (in_ 1 4); AInv 0 (CGet (B "k") None); AStep 0 (in_ 1 4)]))).2 = [RUnit; RInt 1] /\
  answers_of 0 (atomic_run 0 ∅ (firsts (race ++ [ARet 0%nat; AInv 1 CCount; AStep 1 (in_ 1 4); AInv 0 (CGet (B "k") None); AStep 0 (in_ 1 4)]))).2 = [RUnit; RGet 1 false; RGet 2 false].
Proof. vm_compute. done. Qed.

(** C77: calls that do not overlap are calls of the sequential cache. *)
Theorem C77_calls_apart {D : Type} (dnil : D) mx ex l g tr :
  untouched l -> exec dnil (cinit mx ex) (apart l) = Some (g, tr) ->
  exists ops, Forall2 same_call l ops /\ map snd (run dnil (new_cache mx ex) ops).2 = all_received tr /\
    (forall k d, current (g_shared g) k d <-> e_data <$> c_items (run dnil (new_cache mx ex) ops).1 !! k = Some d) /\
    c_pile (run dnil (new_cache mx ex) ops).1 = h_pile (g_shared g).
Proof. exact (calls_apart dnil mx ex l g tr). Qed.
Print Assumptions C77_calls_apart.
(** Two threads in turn, expiry 5: a hit at 3, invalid at 9. *)
Example C77_case :
  returns (apart [(0%nat, CSet (B "k") 1, [in_ 1 0]);
                  (1%nat, CGet (B "k") None, [in_ 1 3; in_ 1 3; in_ 1 3; in_ 1 3; in_ 1 3; in_ 1 3; in_ 1 3]);
                  (0%nat, CGet (B "k") None, [in_ 1 9; in_ 1 9; in_ 1 9; in_ 1 9; in_ 1 9; in_ 1 9]); (1%nat, CCount, [in_ 1 9])]) (cinit 0 5)
  = [(0%nat, RUnit); (1%nat, RGet 1 false); (0%nat, RGet 0 true); (1%nat, RInt 0)].
Proof. vm_compute. done. Qed.

(** Verify visits the two entries and deletes the one the validator rejects. *)
Example C77_case_verify :
  let at_ k := Input 1 9 9 (fun _ => 9) k None None in
  let v := CVerify (Some (fun k _ => bool_decide (k = B "a"))) in
  let sets := [(0%nat, CSet (B "a") 1, [in_ 1 0]); (1%nat, CSet (B "b") 2, [in_ 2 0])] in
  returns (apart (sets ++ [(1%nat, v, [at_ None; at_ None; at_ (Some (B "b")); at_ None; at_ None; at_ (Some (B "a")); at_ None; at_ None]);
                           (0%nat, CCount, [in_ 1 9])])) (cinit 0 0)
  = [(0%nat, RUnit); (1%nat, RUnit); (1%nat, RInt 1); (0%nat, RInt 1)] /\
  (* an entry cannot be left out, nor visited twice *)
  exec 0 (cinit 0 0) (apart (sets ++ [(1%nat, v, [at_ None; at_ None; at_ (Some (B "a")); at_ None; at_ None])])) = None /\
  exec 0 (cinit 0 0) (apart (sets ++ [(1%nat, v, [at_ None; at_ None; at_ (Some (B "a")); at_ None; at_ (Some (B "a")); at_ None])])) = None.
Proof. vm_compute. done. Qed.

(** C18: expiry 5; the fresh value is stored at 11 and not found at 13. *)
Theorem C18_stale_invalidation_refuted :
  exists acts, Sorted Z.le (clocks acts) /\
    returns acts (cinit 0 5) = [(0%nat, RUnit); (0%nat, RUnit); (1%nat, RGet 0 true); (0%nat, RGet 0 false)] /\
    exists pre post, acts = pre ++ AInv 0 (CSet (B "k") 2) :: AStep 0 (in_ 2 11) :: post /\
      post = [ARet 0; AStep 1 (in_ 1 12); ARet 1; AInv 0 (CGet (B "k") None); AStep 0 (in_ 1 13); ARet 0].
Proof. exact stale_delete. Qed.
Print Assumptions C18_stale_invalidation_refuted.
(** Verify, with a validator that accepts entries created at 5 or later: the entry stored at 11 is deleted. *)
Theorem C18_stale_verify_refuted :
  exists acts, Sorted Z.le (clocks acts) /\
    returns acts (cinit 0 0) = [(0%nat, RUnit); (0%nat, RUnit); (1%nat, RInt 1); (0%nat, RGet 0 false)] /\
    exists pre post, acts = pre ++ AInv 0 (CSet (B "k") 2) :: AStep 0 (in_ 2 11) :: post /\
      post = [ARet 0; AStep 1 (in_ 1 12); AStep 1 (in_ 1 12); ARet 1; AInv 0 (CGet (B "k") (Some newer)); AStep 0 (in_ 1 13); ARet 0].
Proof. exact stale_verify. Qed.
Print Assumptions C18_stale_verify_refuted.
(** The visit itself begins after Flush and Set have returned: the loop still walks through the old map. *)
Theorem C18_flushed_verify_refuted :
  exists acts, Sorted Z.le (clocks acts) /\
    returns acts (cinit 0 0) = [(0%nat, RUnit); (0%nat, RUnit); (0%nat, RUnit); (1%nat, RInt 1); (0%nat, RGet 0 false)] /\
    exists pre mid post, acts = pre ++ [AInv 0 CFlush; AStep 0 (in_ 1 11); ARet 0; AInv 0 (CSet (B "k") 2); AStep 0 (in_ 2 11); ARet 0] ++ mid ++ post /\
      mid = [AStep 1 (Input 1 12 12 (fun _ => 12) (Some (B "k")) None None); AStep 1 (in_ 1 12); AStep 1 (in_ 1 12); AStep 1 (in_ 1 12); ARet 1] /\
      post = [AInv 0 (CGet (B "k") (Some newer)); AStep 0 (in_ 1 13); ARet 0].
Proof. exact flushed_verify. Qed.
Print Assumptions C18_flushed_verify_refuted.
Theorem C18_orphan_in_recency_list_refuted :
  exists acts g tr, Sorted Z.le (clocks acts) /\ exec 0 (cinit 0 0) acts = Some (g, tr) /\
    h_items (g_shared g) !! B "k" = None /\ h_pile (g_shared g) = [B "k"] /\
    g_threads g 0%nat = None /\ g_threads g 1%nat = None.
Proof. exact orphan. Qed.
Print Assumptions C18_orphan_in_recency_list_refuted.
