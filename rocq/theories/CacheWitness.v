(** * Concrete histories of XCache (values are integers, 0 stands for nil). *)
From Verif Require Import GoBase CacheModel CacheSpec.
From Coq Require Import Lia.
Local Open Scope Z_scope.

Definition at_ (t : Z) : bytes -> Z := fun _ => t.
Definition mset (k : string) (d t : Z) : op Z := OSet (B k) d t t (at_ t).
Definition mget (k : string) (t : Z) : op Z := OGet (B k) None t t t.
Definition any_order : gmap bytes (entry Z) -> list bytes := fun m => (map_to_list m).*1.
Notation go mx ex ops := (run 0 (new_cache mx ex) ops).
Definition answers (mx ex : Z) (ops : list (op Z)) : list (result Z) := (go mx ex ops).2.*2.

Ltac all_ops := repeat (apply Forall_cons; split; [simpl; first [done|lia|by intros ?|split; (done || lia)]|]); by apply Forall_nil.

(** Maxitems = 3: the fourth object is accepted, and the fifth. *)
Definition small_ops : list (op Z) := [mset "a" 1 0; mset "b" 2 1; mset "c" 3 2; mset "d" 4 3; mset "e" 5 4].

(** Maxitems = 10: nine objects, Flush, eleven other objects. *)
Definition flush_ops : list (op Z) :=
  [mset "a" 1 0; mset "b" 1 0; mset "c" 1 0; mset "d" 1 0; mset "e" 1 0; mset "f" 1 0; mset "g" 1 0; mset "h" 1 0; mset "i" 1 0;
   OFlush;
   mset "A" 1 1; mset "B" 1 1; mset "C" 1 1; mset "D" 1 1; mset "E" 1 1; mset "F" 1 1; mset "G" 1 1; mset "H" 1 1; mset "I" 1 1;
   mset "J" 1 1; mset "K" 1 1].

(** Maxitems = 10, Expire = 5: nine objects, all expired and cleaned, eleven other objects. *)
Definition expire_ops : list (op Z) :=
  [mset "a" 1 0; mset "b" 1 0; mset "c" 1 0; mset "d" 1 0; mset "e" 1 0; mset "f" 1 0; mset "g" 1 0; mset "h" 1 0; mset "i" 1 0;
   OClean 0 (at_ 100);
   mset "A" 1 101; mset "B" 1 101; mset "C" 1 101; mset "D" 1 101; mset "E" 1 101; mset "F" 1 101; mset "G" 1 101; mset "H" 1 101;
   mset "I" 1 101; mset "J" 1 101; mset "K" 1 101].

(** Set of "k" evicts the value it has just stored. *)
Definition self_evict_ops : list (op Z) :=
  [mset "k" 1 0; OFlush;
   mset "A" 1 1; mset "B" 1 1; mset "C" 1 1; mset "D" 1 1; mset "E" 1 1; mset "F" 1 1; mset "G" 1 1; mset "H" 1 1; mset "I" 1 1].

Lemma small_over : exists ops, (step 0 (go 3 0 ops).1 OCount).2 = RInt 5 /\ Forall plain_op ops.
Proof. exists small_ops. split; [vm_compute; done|]. all_ops. Qed.
Lemma flush_over : exists ops, (step 0 (go 10 0 ops).1 OCount).2 = RInt 11.
Proof. exists flush_ops. vm_compute. done. Qed.
Lemma expire_over : exists ops, (step 0 (go 10 5 ops).1 OCount).2 = RInt 11 /\
  Forall (fun o : op Z => match o with OFlush => False | _ => True end) ops.
Proof. exists expire_ops. split; [vm_compute; done|]. all_ops. Qed.

Lemma clean_panics : (step 0 (go 0 0 [mset "a" 1 0]).1 (OClean 200 (at_ 0))).2 = RPanic.
Proof. vm_compute. done. Qed.

Lemma verify_misreports :
  let c := (go 0 5 [mset "a" 1 0; mset "b" 2 0]).1 in
  (step 0 c OCount).2 = RInt 2 /\
  (step 0 c (OVerify None (at_ 100) any_order)).2 = RInt 0 /\
  (step 0 (step 0 c (OVerify None (at_ 100) any_order)).1 OCount).2 = RInt 0.
Proof. vm_compute. done. Qed.
Lemma clean_misreports :
  let c := (go 0 5 [mset "a" 1 0; OClean 0 (at_ 100); mset "b" 2 100]).1 in
  (step 0 c OCount).2 = RInt 1 /\
  (step 0 c (OClean 100 (at_ 101))).2 = RInt 1 /\
  (step 0 (step 0 c (OClean 100 (at_ 101))).1 OCount).2 = RInt 1.
Proof. vm_compute. done. Qed.

Lemma flush_evicts_newest :
  exists ops c tr c' r, go 0 0 ops = (c, tr) /\ step 0 c (OClean 50 (at_ 9)) = (c', r) /\
    used_after (B "a") (B "b") tr /\ is_Some (c_items c !! B "a") /\
    c_items c' !! B "a" = None /\ is_Some (c_items c' !! B "b").
Proof.
  exists [mset "a" 1 0; OFlush; mset "a" 2 1; mset "b" 3 2; mget "a" 3].
  eexists _, _, _, _. split; [vm_compute; reflexivity|]. split; [vm_compute; reflexivity|].
  split_and!.
  - eexists [_; _; _; _], _, []. split; [reflexivity|]. split_and!; [vm_compute; done|by vm_compute|constructor].
  - vm_compute. eauto.
  - vm_compute. done.
  - vm_compute. eauto.
Qed.
Lemma flush_evicts_nothing :
  exists ops c tr c' r, go 0 0 ops = (c, tr) /\ step 0 c (OClean 100 (at_ 9)) = (c', r) /\
    size (c_items c) = 1%nat /\ r = RInt 1 /\ size (c_items c') = 1%nat.
Proof.
  exists [mset "a" 1 0; OFlush; mset "b" 3 2].
  eexists _, _, _, _. split; [vm_compute; reflexivity|]. split; [vm_compute; reflexivity|].
  split_and!; vm_compute; done.
Qed.
Lemma self_evict :
  exists ops c tr, go 10 0 ops = (c, tr) /\ (step 0 c (mset "k" 7 2)).2 = RUnit /\
    (step 0 (step 0 c (mset "k" 7 2)).1 (mget "k" 2)).2 = RGet 0 false.
Proof.
  exists self_evict_ops. eexists _, _. split; [vm_compute; reflexivity|]. split; vm_compute; done.
Qed.
