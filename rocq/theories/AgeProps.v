(** * Property theorems about the age of the values that concurrent Gets give (C132). *)
From Verif Require Import GoBase CacheModel CacheConc CacheConcWitness AgeSpec AgeProofs AgeProofs2.
Local Open Scope Z_scope.

(** ** C132 *)
(** Whatever a Get of key k gives was stored under k, and a clock reading of this very Get found it not older than Expire. *)
Theorem C132_age : forall D (dnil : D) ex mx acts g tr t k v d g', ex <> 0 -> Forall keeps_expire acts ->
  exec dnil (cinit mx ex) acts = Some (g, tr) -> cstep dnil g (ARet t) = Some (g', LRet t (CGet k v) (RGet d false)) ->
  exists a b, running acts t (CGet k v) a b /\ (d = dnil \/ exists tc r, stored acts k d tc /\ reading t b r /\ r <= tc + ex).
Proof. exact @hit_age. Qed.
Print Assumptions C132_age.
(** If the clock does not go back, the value was not older than Expire at any moment before the Get began. *)
Theorem C132_young : forall D (dnil : D) ex mx acts g tr t k v d g', ex <> 0 -> Forall keeps_expire acts -> StronglySorted Z.le (readings_of acts) ->
  exec dnil (cinit mx ex) acts = Some (g, tr) -> cstep dnil g (ARet t) = Some (g', LRet t (CGet k v) (RGet d false)) ->
  exists a b, running acts t (CGet k v) a b /\ (d = dnil \/ exists tc, stored acts k d tc /\ forall r, r ∈ readings_of a -> r <= tc + ex).
Proof. exact @hit_young. Qed.
Print Assumptions C132_young.
(** But when the Get returns it, the value may be older by any amount. *)
Theorem C132_late_refuted : forall n, 0 <= n -> exists acts g tr g', Forall keeps_expire acts /\ StronglySorted Z.le (readings_of acts) /\
  exec 0 (cinit 0 5) acts = Some (g, tr) /\ cstep 0 g (ARet 1) = Some (g', LRet 1 (CGet (B "k") None) (RGet 7 false)) /\
  (forall tc, stored acts (B "k") 7 tc -> tc = 0) /\ last (readings_of acts) = Some (5 + n).
Proof. exact late. Qed.
Print Assumptions C132_late_refuted.
(** And taking away the time to live of an entry, which was an hour, may make a Get drop it after one nanosecond. *)
Theorem C132_forever_refuted : Forall keeps_expire forever_acts /\ StronglySorted Z.le (readings_of forever_acts) /\ last (readings_of forever_acts) = Some 2 /\
  Forall (fun a => match a with AInv _ (CSetTTL _ dur) => dur = hour \/ dur = 0 | AInv _ (CDel _) | AInv _ (CClean _) | AInv _ CFlush | AInv _ (CVerify _) => False | _ => True end) forever_acts /\
  returns forever_acts (cinit 0 0) = [(0%nat, RUnit); (0%nat, RUnit); (0%nat, RUnit); (1%nat, RGet 0 true); (0%nat, RGet 0 false)].
Proof. exact forever. Qed.
Print Assumptions C132_forever_refuted.
Example C132_case : Forall keeps_expire age_acts /\ StronglySorted Z.le (readings_of age_acts) /\ stored age_acts (B "k") 7 10 /\
  returns age_acts (cinit 0 5) = [(0%nat, RUnit); (1%nat, RGet 7 false); (0%nat, RGet 0 true)].
Proof. exact age_case. Qed.
