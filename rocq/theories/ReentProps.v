(** * Property theorems about validators that use the cache (C109, C110). *)
From Verif Require Import GoBase CacheModel CacheSpec ReentModel ReentSpec ReentProofs.
Local Open Scope Z_scope.

(** ** C109 *)
(** A validator that makes no call is the function of the other theorems about the cache. *)
Theorem C109_pure : forall (D : Type) (dnil : D) n (f : option (bytes -> Z -> bool)) ops c,
  rrun dnil (S n) (option_map pure_validator f) c ops =
  Some ((run dnil c (plain_call f <$> ops)).1, zip ops (run dnil c (plain_call f <$> ops)).2.*2).
Proof. exact @rrun_pure. Qed.
Print Assumptions C109_pure.
(** Whatever the validator does: a hit returns the value stored when Get was called, and
    after an answer "invalidated" the key is not in the cache. *)
Theorem C109_hit : forall (D : Type) (dnil : D) n v c k t1 t2 t3 c' d,
  rget dnil n v c k t1 t2 t3 = Some (c', RGet d false) ->
  (exists x, c_items c !! k = Some x /\ d = e_data x) \/ (c_items c !! k = None /\ d = dnil /\ c' = c).
Proof. exact @rget_hit. Qed.
Print Assumptions C109_hit.
Theorem C109_invalidated : forall (D : Type) (dnil : D) n v c k t1 t2 t3 c' d,
  rget dnil n v c k t1 t2 t3 = Some (c', RGet d true) -> d = dnil /\ c_items c' !! k = None.
Proof. exact @rget_rejected. Qed.
Print Assumptions C109_invalidated.
(** When the program comes to a verdict: the entry is returned if it was accepted and is not
    expired by the Expire the program left, and then it is the most recently used; otherwise the
    answer is "invalidated"; what the program did to other keys and to the fields stays. *)
Theorem C109_verdict : forall (D : Type) (dnil : D) n (f : vfun D) c k x t1 t2 t3 c1 b c' r,
  c_items c !! k = Some x -> (e_ttl x = 0 \/ t1 <= e_ctime x + e_ttl x) ->
  vexec dnil (rget dnil n (Some f)) (f k (e_ctime x)) c = Some (c1, Some b) ->
  rget dnil (S n) (Some f) c k t1 t2 t3 = Some (c', r) ->
  (b = true /\ fresh (c_expire c1) (e_ctime x) t2 -> r = RGet (e_data x) false /\ exists rest, c_pile c' = rest ++ [k]) /\
  (b = false \/ ~ fresh (c_expire c1) (e_ctime x) t2 -> r = RGet dnil true) /\
  (forall k', k' <> k -> c_items c' !! k' = c_items c1 !! k') /\ c_expire c' = c_expire c1 /\ c_max c' = c_max c1.
Proof. exact @rget_then. Qed.
Print Assumptions C109_verdict.
(** No panic if every Clean has a percentage within the documented range. *)
Theorem C109_no_panic : forall (D : Type) (dnil : D) n v mx ex ops c tr,
  (forall f k t, v = Some f -> legal_prog (f k t)) -> Forall legal ops -> rrun dnil n v (new_cache mx ex) ops = Some (c, tr) ->
  (forall k, is_Some (c_items c !! k) -> k ∈ c_pile c) /\ Forall (fun e => e.2 <> RPanic) tr.
Proof. exact @reentrant_no_panic. Qed.
Print Assumptions C109_no_panic.
(** A validator that begins by asking for the key it validates never returns; one that
    asks only for keys of lower rank always does. *)
Theorem C109_endless : forall (D : Type) (dnil : D) (f : vfun D) c k x n,
  c_items c !! k = Some x -> e_ttl x = 0 -> (exists t1 t2 t3 next, f k (e_ctime x) = Call (VGet k t1 t2 t3) next) ->
  forall t1 t2 t3, rget dnil n (Some f) c k t1 t2 t3 = None.
Proof. exact @rget_self. Qed.
Print Assumptions C109_endless.
Theorem C109_terminates : forall (D : Type) (dnil : D) rank (f : vfun D),
  (forall k t, gets_below rank (rank k) (f k t)) ->
  forall n c k t1 t2 t3, (rank k < n)%nat -> rget dnil n (Some f) c k t1 t2 t3 <> None.
Proof. exact @rget_total. Qed.
Print Assumptions C109_terminates.
(** A validator that stores a new value under its key: if it accepts, Get returns the old
    value; if it rejects, the new value is lost. *)
Theorem C109_renewed_not_seen_refuted : forall (D : Type) (dnil d1 d2 : D), exists c,
  rrun dnil 1 (Some (renew d2 true)) (new_cache 0 0) [VSet (B "a") d1 0 0 (fun _ => 0); VGet (B "a") 5 5 5; VGet (B "a") 6 6 6]
  = Some (c, [(VSet (B "a") d1 0 0 (fun _ => 0), RUnit); (VGet (B "a") 5 5 5, RGet d1 false); (VGet (B "a") 6 6 6, RGet d2 false)]).
Proof. exact @renewed_not_seen. Qed.
Print Assumptions C109_renewed_not_seen_refuted.
Theorem C109_renewed_lost_refuted : forall (D : Type) (dnil d1 d2 : D), exists c,
  rrun dnil 1 (Some (renew d2 false)) (new_cache 0 0) [VSet (B "a") d1 0 0 (fun _ => 0); VGet (B "a") 5 5 5; VGet (B "a") 6 6 6]
  = Some (c, [(VSet (B "a") d1 0 0 (fun _ => 0), RUnit); (VGet (B "a") 5 5 5, RGet dnil true); (VGet (B "a") 6 6 6, RGet dnil false)]).
Proof. exact @renewed_lost. Qed.
Print Assumptions C109_renewed_lost_refuted.
(** A validator that deletes the key and accepts: 15 entries with Maxitems 10. *)
Theorem C109_overfull_refuted : exists c tr, rrun 0 1 (Some drops) (new_cache 10 0) drop_ops = Some (c, tr ++ [(VCount, RInt 15)]).
Proof. exact dropped_overfull. Qed.
Print Assumptions C109_overfull_refuted.
(** A page depends on its layout: it is valid if the layout is still in the cache. *)
Definition C109_f : vfun Z := fun k t =>
  if decide (k = B "page") then Call (VGet (B "layout") t t t) (fun r => Verdict (match r with RGet d false => negb (d =? 0) | _ => false end))
  else Verdict true.
Example C109_case :
  (forall k t, gets_below (fun k => if decide (k = B "page") then 1%nat else 0%nat) (if decide (k = B "page") then 1%nat else 0%nat) (C109_f k t)) /\
  option_map (fun x => x.2.*2) (rrun 0 2 (Some C109_f) (new_cache 0 0)
    [VSet (B "page") 1 0 0 (fun _ => 0); VSet (B "layout") 2 0 0 (fun _ => 0); VGet (B "page") 1 1 1; VDel (B "layout"); VGet (B "page") 2 2 2; VGet (B "page") 3 3 3])
  = Some [RUnit; RUnit; RGet 1 false; RUnit; RGet 0 true; RGet 0 false].
Proof.
  split; [|vm_compute; reflexivity]. intros k t. unfold C109_f. destruct (decide (k = B "page")); [|constructor].
  apply gb_get; [|intros r; constructor]. rewrite decide_False by done. repeat constructor.
Qed.

(** ** C110 *)
(** Verify with a validator that makes no call. *)
Theorem C110_pure : forall (D : Type) (dnil : D) n (f : option (bytes -> Z -> bool)) c now order,
  rverify dnil n (option_map pure_validator f) c now order = Some (step dnil c (OVerify f now order)).
Proof. exact @rverify_pure. Qed.
Print Assumptions C110_pure.
(** Verify with a validator that stores nothing, whatever else it calls: what is left was there,
    is not expired and was accepted by a run of the validator during the Verify; the number
    returned is at most the number of entries removed. *)
Theorem C110_left : forall (D : Type) (dnil : D) n (f : vfun D) c now order c' i,
  (forall k t, no_store_prog (f k t)) -> iter_order order -> rverify dnil n (Some f) c now order = Some (c', RInt i) ->
  left_of c c' /\ 0 <= i <= Z.of_nat (size (c_items c)) - Z.of_nat (size (c_items c')) /\
  forall k x, c_items c' !! k = Some x -> fresh (c_expire c) (e_ctime x) (now k) /\
    exists c0 c1, left_of c c0 /\ left_of c1 c' /\ is_Some (c_items c0 !! k) /\ vexec dnil (rget dnil n (Some f)) (f k (e_ctime x)) c0 = Some (c1, Some true).
Proof. exact @rverify_left. Qed.
Print Assumptions C110_left.
Theorem C110_no_panic : forall (D : Type) (dnil : D) n v c now order c' r,
  (forall f k t, v = Some f -> legal_prog (f k t)) -> (forall k, is_Some (c_items c !! k) -> k ∈ c_pile c) ->
  rverify dnil n v c now order = Some (c', r) -> (forall k, is_Some (c_items c' !! k) -> k ∈ c_pile c') /\ r <> RPanic.
Proof. exact @rverify_good. Qed.
Print Assumptions C110_no_panic.
Theorem C110_terminates : forall (D : Type) (dnil : D) rank m (f : vfun D),
  (forall k t, gets_below rank (rank k) (f k t)) -> (forall k, (rank k <= m)%nat) ->
  forall c now order, rverify dnil m (Some f) c now order <> None.
Proof. exact @rverify_total. Qed.
Print Assumptions C110_terminates.
(** A value the validator stores anew is removed if it then rejects; the entries the validator
    removes itself are not counted. *)
Theorem C110_renewed_lost_refuted : forall (D : Type) (dnil d1 d2 : D) order, (forall m, order m = (map_to_list m).*1) -> exists c,
  rverify dnil 1 (Some (renew d2 false)) (Cache 0 0 {[B "a" := Entry 0 0 0 d1]} [B "a"]) (fun _ => 0) order = Some (c, RInt 1) /\ size (c_items c) = 0%nat.
Proof. exact @verify_renewed_lost. Qed.
Print Assumptions C110_renewed_lost_refuted.
Theorem C110_undercounts_refuted :
  exists c, rverify 0 1 (Some cascade) (Cache 0 0 (<[B "layout" := Entry 0 0 0 1]> {[B "page" := Entry 0 0 0 2]}) [B "layout"; B "page"]) (fun _ => 0)
    (fun m => (map_to_list m).*1) = Some (c, RInt 1) /\ size (c_items c) = 0%nat.
Proof. exact verify_undercounts. Qed.
Print Assumptions C110_undercounts_refuted.
(** A page whose layout is missing is rejected, the other entry stays. *)
Example C110_case : (forall k t, no_store_prog (C109_f k t)) /\
  option_map (fun x => (x.2, map_to_list (c_items x.1))) (rverify 0 2 (Some C109_f)
    (Cache 0 0 (<[B "other" := Entry 0 0 0 1]> {[B "page" := Entry 0 0 0 2]}) [B "other"; B "page"]) (fun _ => 0) (fun m => (map_to_list m).*1))
  = Some (RInt 1, [(B "other", Entry 0 0 0 1)]).
Proof.
  split; [|vm_compute; reflexivity]. intros k t. unfold C109_f. destruct (decide (k = B "page")); [|constructor].
  constructor; [done|]. intros r. constructor.
Qed.
