(** * Property theorems about the 64 bit arithmetic of the cache (C98). *)
From Verif Require Import GoBase CacheModel CacheSpec WrapModel WrapProofs.
Local Open Scope Z_scope.

(** ** C98 *)
(** Histories with the documented percentages, and with all percentages up to [P] as long as [P] times the number of calls fits an int, are
    those of CacheModel.v, to which C01-C15 apply. *)
Theorem C98_agrees : forall D (dnil : D) m e P ops, 0 <= P -> (Z.of_nat (length ops) + 1) * Z.max 10 P < 2 ^ 63 ->
  Forall (fun o => match o with OClean perc _ => Z.abs perc <= P | _ => True end) ops -> run64 dnil (new_cache m e) ops = run dnil (new_cache m e) ops.
Proof. exact @run_agrees. Qed.
Print Assumptions C98_agrees.
(** A single Clean. *)
Theorem C98_clean : forall D (c : cache D) perc now, Z.of_nat (size (c_items c)) * Z.abs perc < 2 ^ 63 -> mclean64 c perc now = mclean c perc now.
Proof. exact @clean_agrees. Qed.
Print Assumptions C98_clean.
(** When the share computed is larger than the recency list, Clean panics, having removed every entry of the list. *)
Theorem C98_beyond : forall D (c : cache D) perc now, Z.of_nat (length (c_pile c)) < quota64 (Z.of_nat (size (purge (c_expire c) now (c_items c)))) perc ->
  (mclean64 c perc now).2 = RPanic /\ forall k, k ∈ c_pile c -> c_items (mclean64 c perc now).1 !! k = None.
Proof. exact @clean_beyond. Qed.
Print Assumptions C98_beyond.
(** With other percentages the product wraps around: a negative one panics and empties a cache of three entries, and a huge one removes one of four entries. *)
Theorem C98_negative_refuted : (mclean64 three (- 2 ^ 62) (fun _ => 1)).2 = RPanic /\
  forall k, k ∈ map B ["a"; "b"; "c"]%string -> is_Some (c_items three !! k) /\ c_items (mclean64 three (- 2 ^ 62) (fun _ => 1)).1 !! k = None.
Proof. exact negative_panics. Qed.
Print Assumptions C98_negative_refuted.
Theorem C98_huge_refuted : (run64 0 (new_cache 0 0) (four_sets ++ [OClean (2 ^ 62 + 25) (fun _ => 1); OCount])).2.*2 = [RUnit; RUnit; RUnit; RUnit; RInt 1; RInt 3].
Proof. by vm_compute. Qed.
Print Assumptions C98_huge_refuted.

(** The condition holds for the documented range and any history that can be run. *)
Example C98_range : forall n, (n < 2 ^ 56) -> (n + 1) * Z.max 10 100 < 2 ^ 63.
Proof. intros n H. lia. Qed.
Example C98_case : (run64 0 (new_cache 0 0) (four_sets ++ [OClean 50 (fun _ => 1); OCount])).2.*2 = [RUnit; RUnit; RUnit; RUnit; RInt 2; RInt 2].
Proof. by vm_compute. Qed.
