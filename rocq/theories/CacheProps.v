(** * Property theorems about XCache in sequential use (C01-C15, C60). *)
From Verif Require Import GoBase CacheModel CacheSpec CacheProofs CacheProofs2 CacheProofs3 CacheWitness.
From Coq Require Import Lia.
Local Open Scope Z_scope.

(** C01 *)
Theorem C01_hit_is_last_set : forall (D : Type) (dnil : D) mx ex ops c tr k v t1 t2 t3 c' d,
  run dnil (new_cache mx ex) ops = (c, tr) ->
  step dnil c (OGet k v t1 t2 t3) = (c', RGet d false) ->
  is_Some (c_items c !! k) \/ d <> dnil ->
  last_set k d tr.
Proof. exact @hit_last_set. Qed.
Print Assumptions C01_hit_is_last_set.
Example C01_case : answers 10 5 [mset "a" 1 0; mset "b" 2 1; mset "a" 3 2; mget "a" 4; OFlush; mget "a" 4]
  = [RUnit; RUnit; RUnit; RGet 3 false; RUnit; RGet 0 false].
Proof. vm_compute. done. Qed.

(** C02 *)
Theorem C02_unlimited_is_expiring_map : forall (D : Type) (dnil : D) mx ex ops,
  mx <= 0 -> Forall no_evict_op ops ->
  (run dnil (new_cache mx ex) ops).2.*2 = spec_run dnil (SMap ex ∅) ops.
Proof. intros D dnil mx ex ops Hm. exact (refines_run dnil _ _ ops (refines_new mx ex Hm)). Qed.
Print Assumptions C02_unlimited_is_expiring_map.
Theorem C02_kept_value_is_returned : forall (D : Type) (dnil : D) mx ops1 ops2 c0 tr0 k d tc t now c tr v t1 t2 t3,
  mx <= 0 -> run dnil (new_cache mx 0) ops1 = (c0, tr0) -> Forall no_evict_op ops1 ->
  Forall (gentle k tc (c_expire c0)) ops2 ->
  run dnil c0 (OSet k d tc t now :: ops2) = (c, tr) ->
  accepts v k tc -> fresh (c_expire c0) tc t2 ->
  (step dnil c (OGet k v t1 t2 t3)).2 = RGet d false.
Proof. exact @kept_value_returned. Qed.
Print Assumptions C02_kept_value_is_returned.
Example C02_case :
  let ops := [mset "a" 1 0; OSetTTL (B "a") 3; mget "a" 3; mget "a" 4; OExpire 5; mset "b" 2 10; OCount; OClean 0 (at_ 15);
              OVerify (Some (fun k t => bool_decide (t < 5))) (at_ 15) any_order; OCount] in
  Forall no_evict_op ops /\
  answers 0 0 ops = [RUnit; RUnit; RGet 1 false; RGet 0 true; RUnit; RUnit; RInt 1; RInt 0; RInt 1; RInt 0].
Proof. split; [|vm_compute; done]. all_ops. Qed.
Example C02_case_kept :
  let ops1 := [mset "x" 1 0; OExpire 5] in
  let ops2 := [mset "b" 2 11; mget "a" 12; OClean 0 (at_ 13); OCount] in
  Forall no_evict_op ops1 /\ Forall (gentle (B "a") 10 5) ops2 /\ c_expire (go 0 0 ops1).1 = 5 /\
  fresh 5 10 15.
Proof.
  split_and!; [all_ops| |done|right; lia].
  repeat constructor; try done; right; vm_compute; done.
Qed.

(** C03 *)
Theorem C03_get_decision : forall (D : Type) (dnil : D) c k v t1 t2 t3 c' r x,
  step dnil c (OGet k v t1 t2 t3) = (c', r) -> c_items c !! k = Some x ->
  let bad := (e_ttl x <> 0 /\ e_ctime x + e_ttl x < t1)
             \/ (exists f, v = Some f /\ f k (e_ctime x) = false)
             \/ (c_expire c <> 0 /\ e_ctime x + c_expire c < t2) in
  (bad -> r = RGet dnil true /\ c_items c' = delete k (c_items c)) /\
  (~ bad -> r = RGet (e_data x) false /\
            c_items c' = <[k := Entry (e_ctime x) t3 (e_ttl x) (e_data x)]> (c_items c)).
Proof. exact @get_decision. Qed.
Print Assumptions C03_get_decision.
Theorem C03_get_absent : forall (D : Type) (dnil : D) c k v t1 t2 t3,
  c_items c !! k = None -> step dnil c (OGet k v t1 t2 t3) = (c, RGet dnil false).
Proof. exact @get_absent. Qed.
Print Assumptions C03_get_absent.
Example C03_case : answers 0 5
  [mset "a" 1 0; mget "a" 5; mget "a" 6; mget "a" 6; mset "b" 2 0; OSetTTL (B "b") 2; mget "b" 2; mget "b" 3;
   mset "c" 3 0; OGet (B "c") (Some (fun _ _ => true)) 1 1 1; OGet (B "c") (Some (fun _ _ => false)) 1 1 1]
  = [RUnit; RGet 1 false; RGet 0 true; RGet 0 false; RUnit; RUnit; RGet 2 false; RGet 0 true;
     RUnit; RGet 3 false; RGet 0 true].
Proof. vm_compute. done. Qed.

(** C04 *)
Theorem C04_set_renews : forall (D : Type) (dnil : D) c k d tc tr now c' r,
  step dnil c (OSet k d tc tr now) = (c', r) ->
  (forall x, c_items c' !! k = Some x -> x = Entry tc tr 0 d) /\
  (c_max c <= 0 \/ Z.of_nat (size (c_items c)) + 1 < c_max c -> c_items c' !! k = Some (Entry tc tr 0 d)).
Proof. exact @set_renews. Qed.
Print Assumptions C04_set_renews.
Theorem C04_set_is_kept : forall (D : Type) (dnil : D) mx ops c tr0 k d tc tr now c' r,
  Forall plain_op ops -> run dnil (new_cache mx 0) ops = (c, tr0) ->
  step dnil c (OSet k d tc tr now) = (c', r) -> c_items c' !! k = Some (Entry tc tr 0 d).
Proof. exact @set_kept_plain. Qed.
Print Assumptions C04_set_is_kept.
Theorem C04_set_ttl : forall (D : Type) (dnil : D) c k dur c' r,
  step dnil c (OSetTTL k dur) = (c', r) ->
  c_items c' = alter (fun x => Entry (e_ctime x) (e_rtime x) dur (e_data x)) k (c_items c) /\
  c_pile c' = c_pile c /\ c_max c' = c_max c /\ c_expire c' = c_expire c.
Proof. exact @set_ttl_effect. Qed.
Print Assumptions C04_set_ttl.
Example C04_case :
  c_items (go 3 0 [mset "a" 1 0; OSetTTL (B "a") 4; mset "b" 1 1; mset "a" 2 7]).1 !! B "a" = Some (Entry 7 7 0 2)
  /\ c_items (go 3 0 [mset "a" 1 0; OSetTTL (B "a") 4]).1 !! B "a" = Some (Entry 0 0 4 1).
Proof. vm_compute. done. Qed.

(** C05 *)
Theorem C05_clean_evicts_lru : forall (D : Type) (dnil : D) mx ops c tr p now c' r,
  Forall plain_op ops -> run dnil (new_cache mx 0) ops = (c, tr) -> 0 <= p <= 100 ->
  step dnil c (OClean p now) = (c', r) ->
  let n := Z.of_nat (size (c_items c)) in
  r = RInt (n * p / 100) /\
  Z.of_nat (size (c_items c')) = n - n * p / 100 /\
  c_items c' ⊆ c_items c /\
  (forall a b, is_Some (c_items c !! a) -> c_items c' !! a = None -> is_Some (c_items c' !! b) -> used_after b a tr).
Proof. exact @clean_lru. Qed.
Print Assumptions C05_clean_evicts_lru.
Example C05_case :
  let ops := [mset "a" 1 0; mset "b" 2 1; mset "c" 3 2; mset "d" 4 3; mget "a" 4; mset "b" 5 5] in
  Forall plain_op ops /\ answers 0 0 (ops ++ [OClean 50 (at_ 9); mget "a" 9; mget "b" 9; mget "c" 9; mget "d" 9])
  = [RUnit; RUnit; RUnit; RUnit; RGet 1 false; RUnit; RInt 2; RGet 1 false; RGet 5 false; RGet 0 false; RGet 0 false].
Proof. split; [all_ops|vm_compute; done]. Qed.

(** C06 *)
Theorem C06_maxitems_bound : forall (D : Type) (dnil : D) mx ops c tr,
  0 < mx -> Forall (fun o => plain_op o /\ max_untouched o) ops -> run dnil (new_cache mx 0) ops = (c, tr) ->
  Z.of_nat (size (c_items c)) <= Z.max (mx - 1) 9.
Proof. exact @capacity_run. Qed.
Print Assumptions C06_maxitems_bound.
Example C06_case :
  let ops := (fun s => mset s 1 0) <$> ["a"; "b"; "c"; "d"; "e"; "f"; "g"; "h"; "i"; "j"; "k"; "l"]%string in
  Forall (fun o => plain_op o /\ max_untouched o) ops /\ (step 0 (go 10 0 ops).1 OCount).2 = RInt 9.
Proof. split; [all_ops|vm_compute; done]. Qed.

(** C07: what is proved is that the documented bound is violated. *)
Theorem C07_maxitems_small_refuted :
  exists ops, (step 0 (go 3 0 ops).1 OCount).2 = RInt 5 /\ Forall plain_op ops.
Proof. exact small_over. Qed.
Print Assumptions C07_maxitems_small_refuted.
Theorem C07_maxitems_flush_refuted : exists ops, (step 0 (go 10 0 ops).1 OCount).2 = RInt 11.
Proof. exact flush_over. Qed.
Print Assumptions C07_maxitems_flush_refuted.
Theorem C07_maxitems_expire_refuted :
  exists ops, (step 0 (go 10 5 ops).1 OCount).2 = RInt 11 /\
    Forall (fun o : op Z => match o with OFlush => False | _ => True end) ops.
Proof. exact expire_over. Qed.
Print Assumptions C07_maxitems_expire_refuted.
Theorem C07_maxitems_unbounded_refuted : forall (D : Type) (dnil : D) M d N,
  exists ops, Forall (fun o => (exists k, o = OSet k d 0 0 zero_clock) \/ o = OFlush) ops /\
    (step dnil (run dnil (new_cache M 0) ops).1 OCount).2 = RInt (Z.of_nat N).
Proof. exact @unbounded. Qed.
Print Assumptions C07_maxitems_unbounded_refuted.

(** C08 *)
Theorem C08_no_panic : forall (D : Type) (dnil : D) mx ex ops c tr,
  Forall perc_ok ops -> run dnil (new_cache mx ex) ops = (c, tr) ->
  (forall k, is_Some (c_items c !! k) -> k ∈ c_pile c) /\ Forall (fun e => e.2 <> RPanic) tr.
Proof. exact @run_covered. Qed.
Print Assumptions C08_no_panic.
Theorem C08_clean_200_panics : (step 0 (go 0 0 [mset "a" 1 0]).1 (OClean 200 (at_ 0))).2 = RPanic.
Proof. exact clean_panics. Qed.
Print Assumptions C08_clean_200_panics.
Example C08_case : Forall perc_ok (flush_ops ++ [OClean 100 (at_ 0)]) /\
  (go 10 0 (flush_ops ++ [OClean 100 (at_ 0)])).2.*2 !! 21%nat = Some (RInt 11).
Proof. split; [all_ops|vm_compute; done]. Qed.

(** C09 *)
Theorem C09_clean_effect : forall (D : Type) (dnil : D) mx ex ops c tr p now c' r,
  Forall perc_ok ops -> run dnil (new_cache mx ex) ops = (c, tr) -> -100 <= p <= 100 ->
  step dnil c (OClean p now) = (c', r) ->
  let expired := fun k x => c_expire c <> 0 /\ e_ctime x + c_expire c < now k in
  let n := Z.of_nat (size (filter (fun kx => fresh (c_expire c) (e_ctime kx.2) (now kx.1)) (c_items c))) in
  r = RInt (Z.max 0 (Z.quot (n * p) 100)) /\
  (forall k x, c_items c' !! k = Some x -> c_items c !! k = Some x /\ ~ expired k x) /\
  (forall k x, c_items c !! k = Some x -> c_items c' !! k = None ->
     expired k x \/ exists i, c_pile c !! i = Some k /\ Z.of_nat i < Z.quot (n * p) 100).
Proof. exact @clean_effect. Qed.
Print Assumptions C09_clean_effect.
Example C09_case : answers 0 5 [mset "a" 1 0; mset "b" 2 6; mset "c" 3 7; OClean 50 (at_ 9); OCount; mget "a" 9; mget "b" 9; mget "c" 9]
  = [RUnit; RUnit; RUnit; RInt 1; RInt 2; RGet 0 false; RGet 2 false; RGet 3 false].
Proof. vm_compute. done. Qed.

(** C10 *)
Theorem C10_verify_keeps_valid : forall (D : Type) (dnil : D) c f now order c' r,
  iter_order order -> step dnil c (OVerify (Some f) now order) = (c', r) ->
  (forall k x, c_items c' !! k = Some x <->
     c_items c !! k = Some x /\ fresh (c_expire c) (e_ctime x) (now k) /\ f k (e_ctime x) = true) /\
  ((forall k x, c_items c !! k = Some x -> fresh (c_expire c) (e_ctime x) (now k)) ->
    r = RInt (Z.of_nat (size (c_items c)) - Z.of_nat (size (c_items c')))).
Proof. exact @verify_effect. Qed.
Print Assumptions C10_verify_keeps_valid.
Theorem C10_order_irrelevant : forall (D : Type) (dnil : D) c v now o1 o2,
  iter_order o1 -> iter_order o2 -> step dnil c (OVerify v now o1) = step dnil c (OVerify v now o2).
Proof. exact @verify_order_irrelevant. Qed.
Print Assumptions C10_order_irrelevant.
Example C10_case : iter_order any_order /\ answers 0 0
  [mset "a" 1 0; mset "b" 2 1; mset "c" 3 2; OVerify (Some (fun _ t => bool_decide (t = 1))) (at_ 9) any_order;
   mget "a" 9; mget "b" 9; mget "c" 9]
  = [RUnit; RUnit; RUnit; RInt 2; RGet 0 false; RGet 2 false; RGet 0 false].
Proof. split; [by intros ?|vm_compute; done]. Qed.

(** C11: what is proved is that the returned number is not the number of removed entries. *)
Theorem C11_verify_count_refuted :
  let c := (go 0 5 [mset "a" 1 0; mset "b" 2 0]).1 in
  (step 0 c OCount).2 = RInt 2 /\
  (step 0 c (OVerify None (at_ 100) any_order)).2 = RInt 0 /\
  (step 0 (step 0 c (OVerify None (at_ 100) any_order)).1 OCount).2 = RInt 0.
Proof. exact verify_misreports. Qed.
Print Assumptions C11_verify_count_refuted.
Theorem C11_clean_count_refuted :
  let c := (go 0 5 [mset "a" 1 0; OClean 0 (at_ 100); mset "b" 2 100]).1 in
  (step 0 c OCount).2 = RInt 1 /\
  (step 0 c (OClean 100 (at_ 101))).2 = RInt 1 /\
  (step 0 (step 0 c (OClean 100 (at_ 101))).1 OCount).2 = RInt 1.
Proof. exact clean_misreports. Qed.
Print Assumptions C11_clean_count_refuted.
Theorem C11_clean0_always_reports_0 : forall (D : Type) (dnil : D) c p now,
  -100 <= p <= 0 -> (step dnil c (OClean p now)).2 = RInt 0.
Proof. exact @clean0_reports_0. Qed.
Print Assumptions C11_clean0_always_reports_0.
Theorem C11_verify_always_reports_0 : forall (D : Type) (dnil : D) c now order,
  (step dnil c (OVerify None now order)).2 = RInt 0.
Proof. exact @verify_none_reports_0. Qed.
Print Assumptions C11_verify_always_reports_0.

(** C12 *)
Theorem C12_ttl_survives_clean : forall (D : Type) (dnil : D) c k x p now now' order,
  c_items c !! k = Some x -> -100 <= p <= 0 ->
  fresh (c_expire c) (e_ctime x) (now k) -> fresh (c_expire c) (e_ctime x) (now' k) ->
  c_items (step dnil c (OClean p now)).1 !! k = Some x /\
  c_items (step dnil c (OVerify None now' order)).1 !! k = Some x.
Proof. exact @ttl_survives. Qed.
Print Assumptions C12_ttl_survives_clean.
Example C12_case : answers 0 0
  [mset "a" 1 0; OSetTTL (B "a") 1; OClean 0 (at_ 1000); OVerify None (at_ 1000) any_order; OCount; mget "a" 1000; OCount]
  = [RUnit; RUnit; RInt 0; RInt 0; RInt 1; RGet 0 true; RInt 0].
Proof. vm_compute. done. Qed.

(** C13 *)
Theorem C13_flush_empties : forall (D : Type) (dnil : D) c k ops c' tr v t1 t2 t3,
  Forall (fun o => forall d tc tr now, o <> OSet k d tc tr now) ops ->
  run dnil c (OFlush :: ops) = (c', tr) ->
  step dnil c' (OGet k v t1 t2 t3) = (c', RGet dnil false).
Proof. exact @flush_empties. Qed.
Print Assumptions C13_flush_empties.
Theorem C13_flush_count : forall (D : Type) (dnil : D) c,
  (step dnil (step dnil c OFlush).1 OCount).2 = RInt 0.
Proof. intros D dnil c. exact (eq_refl (RInt 0)). Qed.
Print Assumptions C13_flush_count.
Example C13_case : answers 0 0 [mset "a" 1 0; OFlush; OCount; mset "b" 2 1; mget "a" 1; mget "b" 1]
  = [RUnit; RUnit; RInt 0; RUnit; RGet 0 false; RGet 2 false].
Proof. vm_compute. done. Qed.

(** C14: what is proved is that eviction is not least-recently-used after Flush. *)
Theorem C14_lru_after_flush_refuted :
  exists ops c tr c' r, go 0 0 ops = (c, tr) /\ step 0 c (OClean 50 (at_ 9)) = (c', r) /\
    used_after (B "a") (B "b") tr /\ is_Some (c_items c !! B "a") /\
    c_items c' !! B "a" = None /\ is_Some (c_items c' !! B "b").
Proof. exact flush_evicts_newest. Qed.
Print Assumptions C14_lru_after_flush_refuted.
Theorem C14_clean_after_flush_refuted :
  exists ops c tr c' r, go 0 0 ops = (c, tr) /\ step 0 c (OClean 100 (at_ 9)) = (c', r) /\
    size (c_items c) = 1%nat /\ r = RInt 1 /\ size (c_items c') = 1%nat.
Proof. exact flush_evicts_nothing. Qed.
Print Assumptions C14_clean_after_flush_refuted.

(** C15 *)
Theorem C15_other_keys : forall (D : Type) (dnil : D) c o k a c' r,
  match o with
  | OSetTTL k' _ | OGet k' _ _ _ _ | ODel k' => k' = k
  | OSet k' _ _ _ _ => k' = k /\ (c_max c <= 0 \/ Z.of_nat (size (c_items c)) + 1 < c_max c)
  | _ => False
  end -> a <> k -> step dnil c o = (c', r) -> c_items c' !! a = c_items c !! a.
Proof. exact @other_keys. Qed.
Print Assumptions C15_other_keys.
Example C15_case : answers 10 0 [mset "a" 1 0; mset "b" 2 1; OSetTTL (B "b") 1; mget "b" 9; ODel (B "c"); mget "a" 10]
  = [RUnit; RUnit; RUnit; RGet 0 true; RUnit; RGet 1 false].
Proof. vm_compute. done. Qed.

(** C60: what is proved is that a Set can lose the very value it stores. *)
Theorem C60_set_then_get_refuted :
  exists ops c tr, go 10 0 ops = (c, tr) /\ (step 0 c (mset "k" 7 2)).2 = RUnit /\
    (step 0 (step 0 c (mset "k" 7 2)).1 (mget "k" 2)).2 = RGet 0 false.
Proof. exact self_evict. Qed.
Print Assumptions C60_set_then_get_refuted.
