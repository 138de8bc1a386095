(** * Concrete schedules of the concurrent cache (values are integers, 0 stands for nil). *)
From Verif Require Import GoBase CacheModel CacheConc.
Local Open Scope Z_scope.

Definition in_ (x : positive) (t : Z) : input := Input x t t (fun _ => t) None None None.
Definition clocks (acts : list (action Z)) : list Z :=
  omap (fun a => match a with AStep _ i => Some (in_t1 i) | _ => None end) acts.
Definition returns (acts : list (action Z)) (g : config Z) : list (nat * result Z) :=
  match exec 0 g acts with
  | Some (_, tr) => omap (fun ls : label Z * shared Z => match ls.1 with LRet t _ r => Some (t, r) | _ => None end) tr
  | None => []
  end.

(** Thread 1 finds an expired entry; thread 0 stores a fresh one; thread 1 deletes it. *)
Definition stale_acts : list (action Z) :=
  let k := B "k" in
  [AInv 0 (CSet k 1); AStep 0 (in_ 1 0); ARet 0;
   AInv 1 (CGet k None); AStep 1 (in_ 1 10); AStep 1 (in_ 1 10); AStep 1 (in_ 1 10); AStep 1 (in_ 1 10); AStep 1 (in_ 1 10);
   AInv 0 (CSet k 2); AStep 0 (in_ 2 11); ARet 0;
   AStep 1 (in_ 1 12); ARet 1;
   AInv 0 (CGet k None); AStep 0 (in_ 1 13); ARet 0].

(** Thread 1 is about to touch the key in the recency list when thread 0 deletes it. *)
Definition orphan_acts : list (action Z) :=
  let k := B "k" in
  [AInv 0 (CSet k 1); AStep 0 (in_ 1 0); ARet 0;
   AInv 1 (CGet k None); AStep 1 (in_ 1 1); AStep 1 (in_ 1 1); AStep 1 (in_ 1 1); AStep 1 (in_ 1 1); AStep 1 (in_ 1 1);
   AInv 0 (CDel k); AStep 0 (in_ 2 2); ARet 0;
   AStep 1 (in_ 1 3); ARet 1].

(** The expiry is 5; the fresh value is stored at 11 and not found at 13. *)
Lemma stale_delete :
  exists acts, Sorted Z.le (clocks acts) /\
    returns acts (cinit 0 5) = [(0%nat, RUnit); (0%nat, RUnit); (1%nat, RGet 0 true); (0%nat, RGet 0 false)] /\
    exists pre post, acts = pre ++ AInv 0 (CSet (B "k") 2) :: AStep 0 (in_ 2 11) :: post /\
      post = [ARet 0; AStep 1 (in_ 1 12); ARet 1; AInv 0 (CGet (B "k") None); AStep 0 (in_ 1 13); ARet 0].
Proof.
  exists stale_acts. split_and!.
  - vm_compute. repeat constructor; vm_compute; discriminate.
  - vm_compute. done.
  - eexists (take 9 stale_acts), _. split; [|reflexivity]. reflexivity.
Qed.
Lemma orphan :
  exists acts g tr, Sorted Z.le (clocks acts) /\ exec 0 (cinit 0 0) acts = Some (g, tr) /\
    h_items (g_shared g) !! B "k" = None /\ h_pile (g_shared g) = [B "k"] /\
    g_threads g 0%nat = None /\ g_threads g 1%nat = None.
Proof.
  exists orphan_acts.
  assert (H : match exec 0 (cinit 0 0) orphan_acts with
    | Some (g, _) => h_items (g_shared g) !! B "k" = None /\ h_pile (g_shared g) = [B "k"] /\
        g_threads g 0%nat = None /\ g_threads g 1%nat = None
    | None => False end) by (vm_compute; done).
  destruct (exec 0 (cinit 0 0) orphan_acts) as [[g tr]|]; [|done]. destruct H as (H1 & H2 & H3 & H4).
  exists g, tr. split; [|by split_and!].
  vm_compute. repeat constructor; vm_compute; discriminate.
Qed.

(** Thread 1 verifies with a validator that rejects what is older than 5 and has just seen the old
    entry; thread 0 stores an entry the validator accepts; thread 1 deletes it. *)
Definition newer (_ : bytes) (ctime : Z) : bool := 5 <=? ctime.
Definition stale_verify_acts : list (action Z) :=
  let k := B "k" in
  let next := Input 1 10 10 (fun _ => 10) (Some k) None None in
  [AInv 0 (CSet k 1); AStep 0 (in_ 1 0); ARet 0;
   AInv 1 (CVerify (Some newer)); AStep 1 (in_ 1 10); AStep 1 (in_ 1 10); AStep 1 next; AStep 1 (in_ 1 10);
   AInv 0 (CSet k 2); AStep 0 (in_ 2 11); ARet 0;
   AStep 1 (in_ 1 12); AStep 1 (in_ 1 12); ARet 1;
   AInv 0 (CGet k (Some newer)); AStep 0 (in_ 1 13); ARet 0].
Lemma stale_verify :
  exists acts, Sorted Z.le (clocks acts) /\
    returns acts (cinit 0 0) = [(0%nat, RUnit); (0%nat, RUnit); (1%nat, RInt 1); (0%nat, RGet 0 false)] /\
    exists pre post, acts = pre ++ AInv 0 (CSet (B "k") 2) :: AStep 0 (in_ 2 11) :: post /\
      post = [ARet 0; AStep 1 (in_ 1 12); AStep 1 (in_ 1 12); ARet 1; AInv 0 (CGet (B "k") (Some newer)); AStep 0 (in_ 1 13); ARet 0].
Proof.
  exists stale_verify_acts. split_and!.
  - vm_compute. repeat constructor; vm_compute; discriminate.
  - vm_compute. done.
  - eexists (take 8 stale_verify_acts), _. split; [|reflexivity]. reflexivity.
Qed.

(** Thread 1 has begun the loop of Verify; thread 0 flushes the cache and stores an entry that the validator
    accepts; only then does thread 1 take the key from the old map, ask the validator about the old entry and
    delete the new one. *)
Definition flushed_verify_acts : list (action Z) :=
  let k := B "k" in
  let next := Input 1 12 12 (fun _ => 12) (Some k) None None in
  [AInv 0 (CSet k 1); AStep 0 (in_ 1 0); ARet 0;
   AInv 1 (CVerify (Some newer)); AStep 1 (in_ 1 10); AStep 1 (in_ 1 10);
   AInv 0 CFlush; AStep 0 (in_ 1 11); ARet 0; AInv 0 (CSet k 2); AStep 0 (in_ 2 11); ARet 0;
   AStep 1 next; AStep 1 (in_ 1 12); AStep 1 (in_ 1 12); AStep 1 (in_ 1 12); ARet 1;
   AInv 0 (CGet k (Some newer)); AStep 0 (in_ 1 13); ARet 0].
Lemma flushed_verify :
  exists acts, Sorted Z.le (clocks acts) /\
    returns acts (cinit 0 0) = [(0%nat, RUnit); (0%nat, RUnit); (0%nat, RUnit); (1%nat, RInt 1); (0%nat, RGet 0 false)] /\
    exists pre mid post, acts = pre ++ [AInv 0 CFlush; AStep 0 (in_ 1 11); ARet 0; AInv 0 (CSet (B "k") 2); AStep 0 (in_ 2 11); ARet 0] ++ mid ++ post /\
      mid = [AStep 1 (Input 1 12 12 (fun _ => 12) (Some (B "k")) None None); AStep 1 (in_ 1 12); AStep 1 (in_ 1 12); AStep 1 (in_ 1 12); ARet 1] /\
      post = [AInv 0 (CGet (B "k") (Some newer)); AStep 0 (in_ 1 13); ARet 0].
Proof.
  exists flushed_verify_acts. split_and!.
  - vm_compute. repeat constructor; vm_compute; discriminate.
  - vm_compute. done.
  - eexists (take 6 flushed_verify_acts), _, _. split; [|split; reflexivity]. reflexivity.
Qed.
