(** * Property theorems about several clients that load on demand through one cache (C131). *)
From Verif Require Import GoBase CacheModel CacheSpec CacheConc CacheConcWitness CrowdSpec CrowdProofs CrowdProofs2 CrowdProofs3.
Local Open Scope Z_scope.

(** ** C131 *)
(** If only the value of a key is ever stored under it, every Get of every goroutine answers nil or this value, whatever else is done. *)
Theorem C131_values : forall D (dnil : D) load mx ex acts g tr t k v d e,
  exec dnil (cinit mx ex) acts = Some (g, tr) -> Forall (stores_values load) acts ->
  LRet t (CGet k v) (RGet d e) ∈ tr.*1 -> d = dnil \/ d = load k.
Proof. exact @values. Qed.
Print Assumptions C131_values.
(** Without limit and expiry no client loads a key twice ... *)
Theorem C131_once : forall D (dnil : D) is_nil load, (forall k, is_nil (load k) = false) -> forall acts g tr k,
  exec dnil (cinit 0 0) acts = Some (g, tr) -> Forall client_action acts -> on_demand is_nil load tr.*1 -> NoDup (loaders k tr.*1).
Proof. exact @loads_once. Qed.
Print Assumptions C131_once.
Theorem C131_clients : forall D (dnil : D) is_nil load, (forall k, is_nil (load k) = false) -> forall acts g tr k n,
  exec dnil (cinit 0 0) acts = Some (g, tr) -> Forall client_action acts -> on_demand is_nil load tr.*1 ->
  (forall t c, LInv t c ∈ tr.*1 -> (t < n)%nat) -> (length (loaders k tr.*1) <= n)%nat.
Proof. exact @loads_bounded. Qed.
Print Assumptions C131_clients.
(** ... and a Get that begins when some client has stored the value finds it. *)
Theorem C131_settled : forall D (dnil : D) is_nil load, (forall k, is_nil (load k) = false) -> forall acts g tr t a k v b r c,
  exec dnil (cinit 0 0) acts = Some (g, tr) -> Forall client_action acts -> on_demand is_nil load tr.*1 ->
  tr.*1 = a ++ LInv t (CGet k v) :: b ++ LRet t (CGet k v) r :: c -> Forall (fun l => ~ of_thread t l) b ->
  (exists t' d r', LRet t' (CSet k d) r' ∈ a) -> r = RGet (load k) false.
Proof. exact @get_after_set. Qed.
Print Assumptions C131_settled.
(** But however many clients there are, they may all load the same key. *)
Theorem C131_stampede_refuted : forall D (dnil : D) is_nil load k n, is_nil dnil = true -> exists acts g tr,
  exec dnil (cinit 0 0) acts = Some (g, tr) /\ Forall client_action acts /\ on_demand is_nil load tr.*1 /\
  (forall t c, LInv t c ∈ tr.*1 -> (t < n)%nat) /\ loaders k tr.*1 = seq 0 n.
Proof. exact @stampede. Qed.
Print Assumptions C131_stampede_refuted.
Example C131_case : Forall client_action crowd_acts /\ on_demand (Z.eqb 0) length_value crowd_labels /\
  loaders (B "news") crowd_labels = [0%nat; 1%nat] /\
  returns crowd_acts (cinit 0 0) = [(1%nat, RGet 0 false); (0%nat, RGet 0 false); (1%nat, RUnit); (1%nat, RGet 5 false); (0%nat, RUnit); (2%nat, RGet 5 false)].
Proof. exact crowd_case. Qed.
