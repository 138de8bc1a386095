(** * The age of the values that concurrent Gets give: schedules (C132). *)
From Verif Require Import GoBase CacheModel CacheConc CacheConcWitness AgeSpec AgeProofs.
From Coq Require Import Lia.
Local Open Scope Z_scope.

(** Goroutine 1 has found the value young enough; before it moves the key to the end of the recency list, it is not
    scheduled for a long time. *)
Definition late_acts (n : Z) : list (action Z) :=
  let k := B "k" in
  [AInv 0 (CSet k 7); AStep 0 (in_ 1 0); ARet 0;
   AInv 1 (CGet k None); AStep 1 (in_ 1 3); AStep 1 (in_ 1 3); AStep 1 (in_ 1 3); AStep 1 (in_ 1 4); AStep 1 (in_ 1 5); AStep 1 (in_ 1 5);
   AStep 1 (in_ 1 (5 + n))].
Lemma late n : 0 <= n -> exists acts g tr g', Forall keeps_expire acts /\ StronglySorted Z.le (readings_of acts) /\
  exec 0 (cinit 0 5) acts = Some (g, tr) /\ cstep 0 g (ARet 1) = Some (g', LRet 1 (CGet (B "k") None) (RGet 7 false)) /\
  (forall tc, stored acts (B "k") 7 tc -> tc = 0) /\ last (readings_of acts) = Some (5 + n).
Proof.
  intros Hn. exists (late_acts n).
  assert (H : match exec 0 (cinit 0 5) (late_acts n) with
    | Some (g, _) => match cstep 0 g (ARet 1) with Some (_, LRet 1%nat (CGet k None) (RGet d false)) => k = B "k" /\ d = 7 | _ => False end
    | None => False end) by (vm_compute; done).
  destruct (exec 0 (cinit 0 5) (late_acts n)) as [[g tr]|] eqn:E; [|done].
  destruct (cstep 0 g (ARet 1)) as [[g' l]|] eqn:E2; [|done]. exists g, tr, g'. split_and!.
  - repeat constructor.
  - unfold late_acts, readings_of. simpl. repeat constructor; lia.
  - reflexivity.
  - clear E. destruct l as [| |t c r|]; try done. destruct t as [|[]]; try done.
    destruct c as [| |k v| | | | |]; try done. destruct v; [done|]. destruct r as [| |d []|]; try done. destruct H as [-> ->]. exact E2.
  - clear E E2 H. intros tc (a & t & b & i & c & Heq & Hb & Hi). unfold late_acts in Heq.
    destruct a as [|a0 a]; simpl in Heq.
    + injection Heq as <- Heq. destruct b as [|b0 b]; simpl in Heq; [by injection Heq as <- _|].
      injection Heq as <- _. apply Forall_cons in Hb as [Hb _]. by destruct Hb.
    + exfalso. assert (Hin : AInv t (CSet (B "k") 7) ∈ a ++ AInv t (CSet (B "k") 7) :: b ++ AStep t i :: c) by (apply elem_of_app; right; by left).
      injection Heq as _ Heq. simpl in Hin. rewrite <- Heq in Hin. repeat (apply elem_of_cons in Hin as [Hin|Hin]; [discriminate Hin|]). by inversion Hin.
  - reflexivity.
Qed.

(** The time to live is an hour. Goroutine 1 has seen that there is one; goroutine 0 takes it away; goroutine 1 reads it again. *)
Definition hour : Z := 3600000000000.
Definition forever_acts : list (action Z) :=
  let k := B "k" in
  [AInv 0 (CSet k 7); AStep 0 (in_ 1 0); ARet 0; AInv 0 (CSetTTL k hour); AStep 0 (in_ 1 0); ARet 0;
   AInv 1 (CGet k None); AStep 1 (in_ 1 1); AStep 1 (in_ 1 1);
   AInv 0 (CSetTTL k 0); AStep 0 (in_ 1 1); ARet 0;
   AStep 1 (in_ 1 1); AStep 1 (in_ 1 1); ARet 1;
   AInv 0 (CGet k None); AStep 0 (in_ 1 2); ARet 0].
Lemma forever : Forall keeps_expire forever_acts /\ StronglySorted Z.le (readings_of forever_acts) /\ last (readings_of forever_acts) = Some 2 /\
  Forall (fun a => match a with AInv _ (CSetTTL _ dur) => dur = hour \/ dur = 0 | AInv _ (CDel _) | AInv _ (CClean _) | AInv _ CFlush | AInv _ (CVerify _) => False | _ => True end) forever_acts /\
  returns forever_acts (cinit 0 0) = [(0%nat, RUnit); (0%nat, RUnit); (0%nat, RUnit); (1%nat, RGet 0 true); (0%nat, RGet 0 false)].
Proof.
  split_and!; [by repeat constructor|unfold forever_acts, readings_of; simpl; repeat constructor; lia|done| |vm_compute; done].
  unfold forever_acts. repeat (apply Forall_cons; split; [first [exact I|by left|by right]|]). by apply Forall_nil.
Qed.

(** Two goroutines and an expiry of 5: stored at 10, asked for at 12 and found, although checked at 15; asked for at 16 and gone. *)
Definition age_acts : list (action Z) :=
  let k := B "k" in
  [AInv 0 (CSet k 7); AStep 0 (in_ 1 10); ARet 0;
   AInv 1 (CGet k None); AStep 1 (in_ 1 12); AStep 1 (in_ 1 13); AStep 1 (in_ 1 13); AInv 0 (CGet k None); AStep 1 (in_ 1 14); AStep 1 (in_ 1 15);
   AStep 0 (in_ 1 16); AStep 0 (in_ 1 16); AStep 0 (in_ 1 16); AStep 0 (in_ 1 16); AStep 0 (in_ 1 16); AStep 1 (in_ 1 16); AStep 1 (in_ 1 16); ARet 1;
   AStep 0 (in_ 1 17); ARet 0].
Lemma age_case : Forall keeps_expire age_acts /\ StronglySorted Z.le (readings_of age_acts) /\ stored age_acts (B "k") 7 10 /\
  returns age_acts (cinit 0 5) = [(0%nat, RUnit); (1%nat, RGet 7 false); (0%nat, RGet 0 true)].
Proof.
  split_and!; [by repeat constructor|unfold age_acts, readings_of; simpl; repeat constructor; lia| |vm_compute; done].
  exists [], 0%nat, [], (in_ 1 10). eexists. split_and!; [reflexivity|constructor|done].
Qed.
