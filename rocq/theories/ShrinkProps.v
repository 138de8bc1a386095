(** * Property theorems about changing Maxitems of a cache in use (C108). *)
From Verif Require Import GoBase CacheModel CacheSpec CacheProofs CacheProofs2 ShrinkProofs.
Local Open Scope Z_scope.

(** ** C108 *)
(** After Maxitems is set to [mx], every Set removes at least one entry until at most
    18 entries, or fewer than [mx], are left; nothing grows beyond. *)
Theorem C108_shrinks : forall (D : Type) (dnil : D) mx0 mx ops1 ops2 c1 tr1 c2 tr2, 0 < mx ->
  Forall plain_op ops1 -> Forall (fun o => plain_op o /\ max_untouched o) ops2 ->
  run dnil (new_cache mx0 0) ops1 = (c1, tr1) -> run dnil c1 (OMax mx :: ops2) = (c2, tr2) ->
  Z.of_nat (size (c_items c2)) <= Z.max (Z.max (mx - 1) 18) (Z.of_nat (size (c_items c1)) - sets ops2).
Proof. exact @shrink_run. Qed.
Print Assumptions C108_shrinks.
(** The limit itself is not always reached: 18 entries stay 18 under a limit of 10. *)
Theorem C108_stuck_refuted : forall (D : Type) (dnil d : D) N, exists ops1 ops2,
  Forall (fun o => exists k, o = OSet k d 0 0 (fun _ => 0)) (ops1 ++ ops2) /\ length ops2 = N /\
  (step dnil (run dnil (new_cache 100 0) (ops1 ++ OMax 10 :: ops2)).1 OCount).2 = RInt 18.
Proof. exact @stuck. Qed.
Print Assumptions C108_stuck_refuted.
(** With a higher limit, or none, nothing is lost before the limit is reached. *)
Theorem C108_raised : forall (D : Type) (dnil : D) mx0 mx ops1 ops2 c1 tr1 c2 tr2,
  Forall (fun o => exists k d tc t now, o = OSet k d tc t now) ops2 ->
  run dnil (new_cache mx0 0) ops1 = (c1, tr1) -> run dnil c1 (OMax mx :: ops2) = (c2, tr2) ->
  mx <= 0 \/ Z.of_nat (size (c_items c1)) + Z.of_nat (length ops2) < mx ->
  (forall k, is_Some (c_items c1 !! k) -> is_Some (c_items c2 !! k)) /\
  (forall k d tc t now, OSet k d tc t now ∈ ops2 -> is_Some (c_items c2 !! k)).
Proof. exact @raised. Qed.
Print Assumptions C108_raised.
(** 40 entries; the limit becomes 5; ten and thirty Sets later. *)
Example C108_case :
  let c := (run 0 (new_cache 100 0) (fresh_sets 1 0 40)).1 in
  let count ops := (step 0 (run 0 c (OMax 5 :: ops)).1 OCount).2 in
  count [] = RInt 40 /\ count (fresh_sets 1 40 10) = RInt 23 /\ count (fresh_sets 1 40 30) = RInt 18 /\
  count (fresh_sets 1 40 30 ++ [OSet (replicate 69 "a"%char) 2 0 0 (fun _ => 0)]) = RInt 17 /\ sets (fresh_sets 1 40 10) = 10.
Proof. vm_compute. done. Qed.
