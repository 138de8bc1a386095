(** * Property theorems about loading on demand through the cache (C130). *)
From Verif Require Import GoBase CacheModel CacheSpec DemandSpec DemandProofs2.
Local Open Scope nat_scope.

(** ** C130 *)
(** Every request gets the value of its key. *)
Theorem C130_values : forall D (dnil : D) is_nil load, is_nil dnil = true -> (forall k, is_nil (load k) = false) -> forall M qs,
  Forall agreeable qs -> map fst (answers dnil is_nil load M qs) = map (fun q => load (q_key q)) qs.
Proof. exact @values_loaded. Qed.
Print Assumptions C130_values.
(** The first request of a key loads; a later one loads exactly if as many other keys were requested in between as the cache holds. *)
Theorem C130_first : forall D (dnil : D) is_nil load, is_nil dnil = true -> (forall k, is_nil (load k) = false) -> forall M qs q,
  Forall agreeable (qs ++ [q]) -> q_key q ∉ map q_key qs ->
  answers dnil is_nil load M (qs ++ [q]) = answers dnil is_nil load M qs ++ [(load (q_key q), false)].
Proof. exact @first_loads. Qed.
Print Assumptions C130_first.
Theorem C130_again : forall D (dnil : D) is_nil load, is_nil dnil = true -> (forall k, is_nil (load k) = false) -> forall M a q0 b q,
  Forall agreeable (a ++ q0 :: b ++ [q]) -> q_key q0 = q_key q -> q_key q ∉ map q_key b ->
  answers dnil is_nil load M (a ++ q0 :: b ++ [q]) =
  answers dnil is_nil load M (a ++ q0 :: b) ++ [(load (q_key q), bool_decide (different b < held M (loads dnil is_nil load M (a ++ q0 :: b))))].
Proof. exact @again_served. Qed.
Print Assumptions C130_again.
Theorem C130_count : forall D (dnil : D) is_nil load, is_nil dnil = true -> (forall k, is_nil (load k) = false) -> forall M qs,
  Forall agreeable qs -> (step dnil (serve_all dnil is_nil load (new_cache M 0) qs).1 OCount).2 = RInt (Z.of_nat (held M (loads dnil is_nil load M qs))).
Proof. exact @count_held. Qed.
Print Assumptions C130_count.
(** Fewer than nine tenths of the limit: served. The limit less one: loaded. *)
Theorem C130_served : forall D (dnil : D) is_nil load, is_nil dnil = true -> (forall k, is_nil (load k) = false) -> forall M a q0 b q,
  Forall agreeable (a ++ q0 :: b ++ [q]) -> q_key q0 = q_key q -> q_key q ∉ map q_key b -> (M <= 0)%Z \/ different b < cleaned M ->
  answers dnil is_nil load M (a ++ q0 :: b ++ [q]) = answers dnil is_nil load M (a ++ q0 :: b) ++ [(load (q_key q), true)].
Proof. exact @surely_served. Qed.
Print Assumptions C130_served.
Theorem C130_loaded : forall D (dnil : D) is_nil load, is_nil dnil = true -> (forall k, is_nil (load k) = false) -> forall M a q0 b q,
  Forall agreeable (a ++ q0 :: b ++ [q]) -> q_key q0 = q_key q -> q_key q ∉ map q_key b -> (0 < M)%Z -> full M <= S (different b) ->
  answers dnil is_nil load M (a ++ q0 :: b ++ [q]) = answers dnil is_nil load M (a ++ q0 :: b) ++ [(load (q_key q), false)].
Proof. exact @surely_loaded. Qed.
Print Assumptions C130_loaded.
(** Fewer keys than the limit are loaded once each. *)
Theorem C130_fits : forall D (dnil : D) is_nil load, is_nil dnil = true -> (forall k, is_nil (load k) = false) -> forall M qs,
  Forall agreeable qs -> (M <= 0)%Z \/ loads dnil is_nil load M qs < full M \/ different qs < full M -> loads dnil is_nil load M qs = different qs.
Proof. exact @loads_different. Qed.
Print Assumptions C130_fits.
(** If every key comes back only after so many others, the cache is of no use. *)
Theorem C130_useless : forall D (dnil : D) is_nil load, is_nil dnil = true -> (forall k, is_nil (load k) = false) -> forall M qs,
  Forall agreeable qs -> (0 < M)%Z ->
  (forall a q0 b q c, qs = a ++ q0 :: b ++ q :: c -> q_key q0 = q_key q -> full M <= S (different b)) -> loads dnil is_nil load M qs = length qs.
Proof. exact @far_apart. Qed.
Print Assumptions C130_useless.
(** A cache larger by a ninth serves whatever the smaller one serves ... *)
Theorem C130_larger : forall D (dnil : D) is_nil load, is_nil dnil = true -> (forall k, is_nil (load k) = false) -> forall M1 M2 qs,
  Forall agreeable qs -> (0 < M1)%Z -> (M2 <= 0)%Z \/ full M1 <= S (cleaned M2) ->
  Forall2 (fun a1 a2 => a1.2 = true -> a2.2 = true) (answers dnil is_nil load M1 qs) (answers dnil is_nil load M2 qs) /\
  loads dnil is_nil load M2 qs <= loads dnil is_nil load M1 qs.
Proof. exact @larger_serves. Qed.
Print Assumptions C130_larger.
(** ... but with a limit of 30 it can load half as often again as with 29. *)
Theorem C130_larger_refuted : forall D (dnil : D) is_nil load, is_nil dnil = true -> (forall k, is_nil (load k) = false) -> forall r, exists ks,
  loads dnil is_nil load 29 (map plain_request ks) = 30 + 2 * r /\ loads dnil is_nil load 30 (map plain_request ks) = 30 + 3 * r.
Proof. exact @larger_loads_more. Qed.
Print Assumptions C130_larger_refuted.
(** Limit 20. After 25 keys the cache has 19; walking through 20 keys again and again it never helps, through 19 always. *)
Example C130_case : Forall agreeable (shop_requests (seq 0 25 ++ [7; 24; 6; 5])) /\
  map snd (answers 0%Z (Z.eqb 0) value_of 20 (shop_requests (seq 0 25 ++ [7; 24; 6; 5]))) = replicate 25 false ++ [true; true; true; false] /\
  loads 0%Z (Z.eqb 0) value_of 20 (shop_requests (concat (replicate 3 (seq 0 20)))) = 60 /\
  loads 0%Z (Z.eqb 0) value_of 20 (shop_requests (concat (replicate 3 (seq 0 19)))) = 19.
Proof. exact shop_case. Qed.
