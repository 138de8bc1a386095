(** * Property theorems about the critical sections of XCache (C36, C38). *)
From Verif Require Import GoBase GoStrings CacheModel CacheConc LockModel LockInstProofs LockProofs CacheLock CacheLockProofs.
Local Open Scope Z_scope.

(** ** C36: interleaved action by action, the sections behave as if they ran in one piece, in the order of locking. *)
Theorem C36_cache_sections : forall (D : Type) (s0 : shared D) acts g tr,
  calls_only sec_method acts -> exec (init s0) acts = Some (g, tr) ->
  exists calls, order_of_locking sec_method calls tr /\
    (forall t, well_bracketed t tr) /\
    (forall t, returns t tr `prefix_of` results t (obj_run sec_atomic s0 calls).2) /\
    (forall t, c_thr g t = TIdle -> returns t tr = results t (obj_run sec_atomic s0 calls).2) /\
    ((forall t m, ~ in_section (c_thr g t) m) -> c_mem g = (obj_run sec_atomic s0 calls).1).
Proof. exact @cache_linearizable. Qed.
Print Assumptions C36_cache_sections.
(** The steps of CacheConc.v (C16-C18) are these sections. *)
Theorem C36_cache_steps : forall (D : Type) (dnil : D) (s : shared D) i,
  (forall k d, h_heap s !! in_loc i = None ->
     exists r, tstep dnil s (CSet k d) Start i = Some ((sec_atomic s (KSet k d i)).1, Exit r) /\
       (sec_atomic s (KSet k d i)).2 = match r with RPanic => None | _ => Some (Done r) end) /\
  (forall k dur, tstep dnil s (CSetTTL k dur) Start i = Some ((sec_atomic s (KSetTTL k dur)).1, Exit RUnit)) /\
  (forall k, tstep dnil s (CDel k) Start i = Some ((sec_atomic s (KDel k)).1, Exit RUnit)) /\
  (exists n, tstep dnil s CCount Start i = Some (s, Exit (RInt n)) /\ sec_atomic s KCount = (s, Some (Done (RInt n)))) /\
  (forall perc, exists r, tstep dnil s (CClean perc) Start i = Some ((sec_atomic s (KClean perc i)).1, Exit r) /\
       (sec_atomic s (KClean perc i)).2 = match r with RPanic => None | _ => Some (Done r) end) /\
  tstep dnil s CFlush Start i = Some ((sec_atomic s KFlush).1, Exit RUnit) /\
  (forall k v, (exists x, sec_atomic s (KLook k) = (s, Some (Found (Some x))) /\ tstep dnil s (CGet k v) Start i = Some (s, GTtl x)) \/
               (sec_atomic s (KLook k) = (s, Some (Found None)) /\ tstep dnil s (CGet k v) Start i = Some (s, Exit (RGet dnil false)))) /\
  (forall k v, tstep dnil s (CGet k v) GDel i = Some ((sec_atomic s (KDel k)).1, Exit (RGet dnil true))) /\
  (forall k v x e, h_heap s !! x = Some e ->
     tstep dnil s (CGet k v) (GTouch x) i = Some ((sec_atomic s (KTouch k)).1, Exit (RGet (e_data e) false))) /\
  (forall v, exists r, tstep dnil s (CVerify v) Start i = Some ((sec_atomic s (KClean 0 i)).1,
               match v, r with Some _, RInt n => VRange n | _, _ => Exit r end) /\
       (sec_atomic s (KClean 0 i)).2 = match r with RPanic => None | _ => Some (Done r) end) /\
  (forall v k m st vis n, tstep dnil s (CVerify v) (VDel k m st vis n) i = Some ((sec_atomic s (KDel k)).1, VLoop m st vis (n + 1))).
Proof. exact @cache_steps. Qed.
Print Assumptions C36_cache_steps.

(** ** C38: a panic releases the lock. *)
Theorem C38_cache_releases : forall (D : Type) (s0 : shared D) acts g tr,
  calls_only sec_method acts -> exec (init s0) acts = Some (g, tr) -> forall t m, c_thr g t <> TDead m.
Proof. exact @cache_releases. Qed.
Print Assumptions C38_cache_releases.
(** Thread 0 stores an entry and calls Clean(200), which panics half way; thread 1 then counts no entry. *)
Definition C38_input : input := Input 1 0 0 (fun _ => 0) None None None.
Definition C38_cache : list (action (shared Z) (klocal Z)) :=
  let call t o n := AInv t (sec_method o) :: (if m_write (sec_method o) then [AAnnounce t] else []) ++ AAcquire t :: replicate n (ABody t) in
  call 0%nat (KSet (B "k") 7 C38_input) 11%nat ++ [ARelease 0%nat; ARet 0%nat] ++
  call 0%nat (KClean 200 C38_input) 4%nat ++ call 1%nat KCount 1%nat ++ [ARet 0%nat; ARelease 1%nat; ARet 1%nat].
Example C38_cache_case :
  match exec (init (Shared 0 0 ∅ ∅ [] [])) C38_cache with
  | Some (g, tr) => returns 0 tr = [Some (Done RUnit); None] /\ returns 1 tr = [Some (Done (RInt 0))] /\ h_pile (c_mem g) = [B "k"]
  | None => False
  end.
Proof. vm_compute. done. Qed.
