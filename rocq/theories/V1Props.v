(** * Property theorems about the cache of the root package, version 1 (C81). *)
From Verif Require Import GoBase CacheModel V1Cache V1CacheProofs.
Local Open Scope Z_scope.

(** C81 *)
Theorem C81_same_answers : forall (D : Type) (dnil : D) mx ex ops, Forall no_validation ops ->
  (run1 dnil (new_cache1 mx ex) ops).2 = (run dnil (new_cache mx ex) (map up ops)).2.*2.
Proof. exact @v1_same_answers. Qed.
Print Assumptions C81_same_answers.
Theorem C81_verify : forall (D : Type) (dnil : D) mx ex ops f now order, Forall no_validation ops ->
  let c1 := (run1 dnil (new_cache1 mx ex) ops).1 in let c2 := (run dnil (new_cache mx ex) (map up ops)).1 in
  let a1 := step1 dnil c1 (V1Verify (Some f) now order) in let a2 := step dnil c2 (up (V1Verify (Some f) now order)) in
  a1.2 = a2.2 /\
  (step1 dnil a1.1 V1Count).2 = (step dnil a2.1 OCount).2 /\
  forall k v t2 t3, (step1 dnil a1.1 (V1Get k v t2 t3)).2 = (step dnil a2.1 (up (V1Get k v t2 t3))).2.
Proof. exact @v1_verify. Qed.
Print Assumptions C81_verify.
Theorem C81_maxitems_refuted :
  exists ops, Forall quiet ops /\ (step1 0 (run1 0 (new_cache1 10 0) ops).1 V1Count).2 = RInt 11 /\
    (step 0 (run 0 (new_cache 10 0) (map up ops)).1 OCount).2 = RInt 9.
Proof. exact v1_over. Qed.
Print Assumptions C81_maxitems_refuted.
Theorem C81_set_then_get_refuted :
  exists ops, Forall quiet ops /\
    (run1 0 (new_cache1 10 0) (ops ++ [set_ "k" 7; get_ "k"])).2 = (run1 0 (new_cache1 10 0) ops).2 ++ [RUnit; RGet 0 false].
Proof. exact v1_self_evict. Qed.
Print Assumptions C81_set_then_get_refuted.
Example C81_case :
  let ops := [set_ "a" 1; set_ "b" 2; get_ "a"; V1Clean 50 (at1 0); get_ "b"; get_ "a"; V1Expire 5; V1Get (B "a") None 9 9; V1Count] in
  Forall no_validation ops /\
  (run1 0 (new_cache1 0 0) ops).2 = [RUnit; RUnit; RGet 1 false; RInt 1; RGet 0 false; RGet 1 false; RUnit; RGet 0 true; RInt 0].
Proof. split; [by repeat constructor|vm_compute; done]. Qed.

