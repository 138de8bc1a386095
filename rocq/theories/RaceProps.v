(** * Property theorems about the limit of a cache whose Gets are overtaken by other calls (C103). *)
From Verif Require Import GoBase CacheModel CacheConc CacheConcWitness RaceSpec RaceProofs RaceWitness.
Local Open Scope Z_scope.

(** C103: each Get during which another thread makes a step may cost one entry of the limit. *)
Theorem C103_bound : forall (D : Type) (dnil : D) mx acts g tr,
  0 < mx -> Forall calm acts -> exec dnil (cinit mx 0) acts = Some (g, tr) ->
  Z.of_nat (size (h_items (g_shared g))) <= Z.max (mx - 1) 9 + Z.of_nat (overtaken acts).
Proof. exact @race_bound. Qed.
Print Assumptions C103_bound.
Theorem C103_count : forall (D : Type) (dnil : D) mx acts g tr t n g',
  0 < mx -> Forall calm acts -> exec dnil (cinit mx 0) acts = Some (g, tr) ->
  cstep dnil g (ARet t) = Some (g', LRet t CCount (RInt n)) ->
  n <= Z.max (mx - 1) 9 + Z.of_nat (overtaken acts).
Proof. exact @race_count. Qed.
Print Assumptions C103_count.
(** The recency list holds at most one superfluous key for each of them. *)
Theorem C103_list : forall (D : Type) (dnil : D) mx acts g tr,
  0 < mx -> Forall calm acts -> exec dnil (cinit mx 0) acts = Some (g, tr) ->
  Z.of_nat (length (h_pile (g_shared g))) <= Z.of_nat (size (h_items (g_shared g))) + Z.of_nat (overtaken acts).
Proof. exact @race_leak. Qed.
Print Assumptions C103_list.
(** Two Gets, one of them overtaken: nine entries are allowed, ten are there. *)
Definition C103_acts : list (action Z) :=
  ghost_acts (B "k") 1 1 ++ concat ((fun j => set_acts (num_key j) 2 (Pos.of_nat (j + 2))) <$> seq 0 10) ++
  [AInv 1 (CGet (num_key 3) None); AStep 1 (in_ 1 0); AInv 0 CCount; AStep 1 (in_ 1 0); AStep 1 (in_ 1 0); AStep 1 (in_ 1 0);
   AStep 1 (in_ 1 0); AStep 1 (in_ 1 0); ARet 1; AStep 0 (in_ 1 0); ARet 0].
Example C103_case : Forall calm C103_acts /\ overtaken C103_acts = 1%nat /\
  drop 13 (returns C103_acts (cinit 10 0)) = [(1%nat, RGet 2 false); (0%nat, RInt 10)].
Proof. split; [repeat constructor|vm_compute; done]. Qed.

(** Set, Get and Del alone bring the cache to any size, whatever the limit. *)
Theorem C103_unbounded_refuted : forall (D : Type) (dnil : D) M (d : D) N,
  exists acts g tr, Forall simple acts /\ exec dnil (cinit M 0) acts = Some (g, tr) /\
    (forall t, g_threads g t = None) /\ size (h_items (g_shared g)) = N.
Proof. exact @race_unbounded. Qed.
Print Assumptions C103_unbounded_refuted.
(** The recency list of an empty cache grows without bound. *)
Theorem C103_leak_refuted : forall (D : Type) (dnil : D) M (d : D) n,
  exists acts g tr, Forall simple acts /\ exec dnil (cinit M 0) acts = Some (g, tr) /\
    (forall t, g_threads g t = None) /\ size (h_items (g_shared g)) = 0%nat /\ length (h_pile (g_shared g)) = n /\
    overtaken acts = n.
Proof. exact @race_leaks. Qed.
Print Assumptions C103_leak_refuted.
(** The Set that reaches the limit removes the entry it has just stored. *)
Theorem C103_fresh_refuted : exists acts, overtaken acts = 1%nat /\
  returns acts (cinit 10 0) =
    [(0%nat, RUnit); (1%nat, RUnit); (0%nat, RGet 1 false)] ++ replicate 9 (0%nat, RUnit) ++ [(0%nat, RUnit); (0%nat, RGet 0 false)] /\
  exists pre, acts = pre ++ [AInv 0 (CSet (B "k") 3); AStep 0 (in_ 20 0); ARet 0; AInv 0 (CGet (B "k") None); AStep 0 (in_ 1 0); ARet 0].
Proof. exact fresh_is_lost. Qed.
Print Assumptions C103_fresh_refuted.
