(** * Property theorems: the settings of a cache assigned while other goroutines use it (C113). *)
From Verif Require Import GoBase CacheModel CacheConc CacheConcSpec CacheConcWitness SettingsSpec SettingsProofs.
Local Open Scope Z_scope.

(** C113 *)
Theorem C113_reason {D : Type} (dnil : D) mx ex acts g tr t k v d g' :
  exec dnil (cinit mx ex) acts = Some (g, tr) ->
  cstep dnil g (ARet t) = Some (g', LRet t (CGet k v) (RGet d true)) ->
  exists b trb qs, during dnil (cinit mx ex) t (CGet k v) acts tr b trb qs /\ reason t k v b trb qs.
Proof. exact (conc_reason dnil mx ex acts g tr t k v d g'). Qed.
Print Assumptions C113_reason.
Theorem C113_expired {D : Type} (dnil : D) mx ex acts g tr t k d g' :
  exec dnil (cinit mx ex) acts = Some (g, tr) ->
  cstep dnil g (ARet t) = Some (g', LRet t (CGet k None) (RGet d true)) ->
  exists b trb qs, during dnil (cinit mx ex) t (CGet k None) acts tr b trb qs /\
    ((forall z, AExpire z ∉ b) -> (forall x z, ttl_was t trb x z -> z = 0) ->
     h_expire (g_shared g) <> 0 /\
     exists x e now, stored t trb k x e /\ clock t b now /\ e_ctime e + h_expire (g_shared g) < now).
Proof. exact (conc_expired dnil mx ex acts g tr t k d g'). Qed.
Print Assumptions C113_expired.
(** Expire is lowered from 100 to 5 before the Get: the entry of instant 0 is invalid at 9. *)
Definition C113_acts : list (action Z) :=
  [AInv 0 (CSet (B "k") 1); AStep 0 (in_ 1 0); ARet 0; AExpire 5;
   AInv 1 (CGet (B "k") None); AStep 1 (in_ 1 9); AStep 1 (in_ 1 9); AStep 1 (in_ 1 9); AStep 1 (in_ 1 9); AStep 1 (in_ 1 9);
   AMax 3; AStep 1 (in_ 1 9); ARet 1].
Example C113_case : returns C113_acts (cinit 0 100) = [(0%nat, RUnit); (1%nat, RGet 0 true)].
Proof. vm_compute. done. Qed.
(** The validator has consulted a file and says no; the function of the other calls would have said yes. *)
Example C113_case_file :
  returns [AInv 0 (CSet (B "k") 1); AStep 0 (in_ 1 0); ARet 0; AInv 1 (CGet (B "k") (Some (fun _ _ => true))); AStep 1 (in_ 1 1); AStep 1 (in_ 1 1);
           AStep 1 (Input 1 1 1 (fun _ => 1) None None (Some No)); AStep 1 (in_ 1 1); ARet 1] (cinit 0 0)
  = [(0%nat, RUnit); (1%nat, RGet 0 true)].
Proof. vm_compute. done. Qed.

(** Expire 100 is switched off (0) during a Get of an entry of age 1: it is deleted as if it had expired. *)
Theorem C113_switch_off_refuted :
  exists acts pre post, acts = pre ++ AExpire 0 :: post /\ Forall no_assignment (pre ++ post) /\ Sorted Z.le (clocks acts) /\
    (exists pre', pre = [AInv 0 (CSet (B "k") 1); AStep 0 (in_ 1 0); ARet 0] ++ AInv 1 (CGet (B "k") None) :: pre') /\
    Forall (fun z => z <= 2) (clocks acts) /\
    returns acts (cinit 0 100) = [(0%nat, RUnit); (1%nat, RGet 0 true); (0%nat, RGet 0 false)].
Proof. exact switch_off. Qed.
Print Assumptions C113_switch_off_refuted.
(** The limit 1000 is switched off (0) during a Set, which reads 1000 and then 0: of ten entries one is evicted. *)
Theorem C113_limit_off_refuted :
  returns (ten_acts between) (cinit 1000 0) = repeat (0%nat, RUnit) 10 ++ [(0%nat, RGet 0 false)] /\
  match exec 0 (cinit 1000 0) (ten_acts between) with Some (g, _) => size (h_items (g_shared g)) = 9%nat | None => False end.
Proof. exact limit_off. Qed.
Print Assumptions C113_limit_off_refuted.
(** Without the assignment inside the Set the ten entries stay. *)
Example C113_limit_case :
  match exec 0 (cinit 1000 0) (take 31 (ten_acts (in_ 10 0))) with Some (g, _) => size (h_items (g_shared g)) = 10%nat | None => False end.
Proof. vm_compute. done. Qed.
