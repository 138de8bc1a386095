(** * Property theorems about entries safe from eviction (C101). *)
From Verif Require Import GoBase CacheModel CacheSpec CacheProofs3 CacheWitness RecentSpec RecentProofs.
Local Open Scope Z_scope.

(** ** C101 *)
(** As long as fewer other keys than nine tenths of the limit were used since the last use of the key, its value is there. *)
Theorem C101_recent_kept : forall D (dnil : D) mx M ops1 ops2 c0 tr0 k d tc t now c e tr v t1 t2 t3,
  Forall plain_op ops1 -> run dnil (new_cache mx 0) ops1 = (c0, tr0) -> c_max c0 <= 0 \/ M <= c_max c0 ->
  Forall (spares M k tc) ops2 -> run dnil c0 (OSet k d tc t now :: ops2) = (c, e :: tr) ->
  (forall p, p `prefix_of` tr -> recent k (safe_share M) (e :: p)) -> accepts v k tc ->
  (step dnil c (OGet k v t1 t2 t3)).2 = RGet d false.
Proof. exact @recent_is_kept. Qed.
Print Assumptions C101_recent_kept.
(** In particular when all the other keys used since its Set are that few. *)
Theorem C101_few_others : forall D (dnil : D) mx M ops1 ops2 c0 tr0 k d tc t now c e tr v t1 t2 t3,
  Forall plain_op ops1 -> run dnil (new_cache mx 0) ops1 = (c0, tr0) -> c_max c0 <= 0 \/ M <= c_max c0 ->
  Forall (spares M k tc) ops2 -> run dnil c0 (OSet k d tc t now :: ops2) = (c, e :: tr) ->
  few_others k (safe_share M) tr -> accepts v k tc ->
  (step dnil c (OGet k v t1 t2 t3)).2 = RGet d false.
Proof. exact @few_others_kept. Qed.
Print Assumptions C101_few_others.
(** The number is exact for every limit: with as many other keys the value can be lost. *)
Theorem C101_bound_exact : forall D (dnil : D) M d, exists ops1 k ops2,
  Forall (fun o => exists b, b <> k /\ o = OSet b d 0 0 zero_clock) ops2 /\ Z.of_nat (length ops2) = safe_share M /\
  forall v t1 t2 t3, 0 < M -> (step dnil (run dnil (new_cache M 0) (ops1 ++ OSet k d 0 0 zero_clock :: ops2)).1 (OGet k v t1 t2 t3)).2 = RGet dnil false.
Proof. exact @safe_share_exact. Qed.
Print Assumptions C101_bound_exact.

(** Limit 20: safe with 17 others, kept by a use in between, lost with 18. *)
Definition others (n : nat) : list (op Z) := (fun i => OSet (replicate i "x"%char) 1 0 0 (at_ 0)) <$> seq 1 n.
Example C101_case : safe_share 20 = 18 /\ safe_share 3 = 9 /\
  (step 0 (go 20 0 (mset "old" 5 0 :: mset "k" 7 0 :: others 17)).1 (mget "k" 1)).2 = RGet 7 false /\
  (step 0 (go 20 0 (mset "old" 5 0 :: mset "k" 7 0 :: others 18)).1 (mget "k" 1)).2 = RGet 0 false /\
  (step 0 (go 20 0 (mset "old" 5 0 :: mset "k" 7 0 :: others 10 ++ mget "k" 0 :: drop 10 (others 27))).1 (mget "k" 1)).2 = RGet 7 false.
Proof. vm_compute. done. Qed.
(** The premises hold of the first history. *)
Example C101_premises : Forall (spares 20 (B "k") 0) (others 17) /\
  exists e tr, (go 20 0 (mset "k" 7 0 :: others 17)).2 = e :: tr /\ few_others (B "k") (safe_share 20) tr.
Proof.
  split. { unfold others. apply Forall_forall. intros o Ho. apply elem_of_list_fmap in Ho as (i & -> & _). simpl. destruct i as [|[|i]]; done. }
  eexists _, _. split; [vm_compute; reflexivity|].
  exists (list_to_set ((fun i => replicate i "x"%char) <$> seq 1 17)). split; [|vm_compute; done].
  intros e' b He' Hb _. apply elem_of_list_to_set.
  repeat (apply elem_of_cons in He' as [->|He']; [simpl in Hb; subst b; vm_compute; set_solver|]). by apply elem_of_nil in He'.
Qed.
