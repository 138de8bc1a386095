(** * The critical sections of XCache (v2/xcache.go) as methods of LockModel.v.

    CacheConc.v interleaves whole critical sections.  Here the same sections are sequences of
    memory actions between Lock and Unlock (all deferred), which LockModel.v interleaves action
    by action.  Clock readings, the address of a new entry and the order of the iteration in
    mClean are inputs, as in CacheConc.v. *)
From Verif Require Import GoBase CacheModel CacheConc LockModel.
Local Open Scope Z_scope.

Section CacheLock.
  Context {D : Type}.
  Notation shared := (shared D).

  (** The sections; lines of v2/xcache.go. *)
  Inductive ksec :=
  | KSet (k : bytes) (d : D) (i : input)   (* 64-78 *)
  | KSetTTL (k : bytes) (dur : Z)          (* 84-91 *)
  | KLook (k : bytes)                      (* mGet, 110-115 *)
  | KTouch (k : bytes)                     (* in Get, 168-171 *)
  | KDel (k : bytes)                       (* 178-184 *)
  | KCount                                 (* 187-192 *)
  | KClean (perc : Z) (i : input)          (* 233-237 *)
  | KFlush.                                (* 268-273 *)
  (** Local variables of a section, then its result. *)
  Inductive klocal :=
  | Vars (found full out : bool) (num : Z)
  | Done (r : result D)
  | Found (x : option positive).
  Definition start_vars : klocal := Vars false true false 0.
  Notation kact := (act shared klocal).

  Definition with_items (s : shared) (m : gmap bytes positive) : shared := Shared (h_max s) (h_expire s) (h_heap s) m (h_pile s) (h_gone s).
  Definition with_pile (s : shared) (p : list bytes) : shared := Shared (h_max s) (h_expire s) (h_heap s) (h_items s) p (h_gone s).
  (** Actions on the memory alone. *)
  Definition on (f : shared -> shared) : kact := fun s l => Some (f s, l).
  Definition finish (r : klocal) : kact := fun s _ => Some (s, r).

  (** mClean, v2/xcache.go:198-227: expired entries; the number to evict; the loop; the test
      that the loop did not leave the recency list (the panic); the rest of the recency list. *)
  Definition a_expired (i : input) : kact := fun s l =>
    match l with
    | Vars _ true _ _ =>
        Some (with_items s (if decide (rd_exp1 (reads s i) = 0) then h_items s
                else filter (fun kx => before_now (ctime_of (h_heap s) kx.2) (rd_exp2 (reads s i) kx.1) (in_now i kx.1) = false) (h_items s)), l)
    | _ => Some (s, l)
    end.
  Definition a_quota (perc : Z) : kact := fun s l =>
    match l with Vars b true o _ => Some (s, Vars b true o (quota (Z.of_nat (size (h_items s))) perc)) | _ => Some (s, l) end.
  Definition a_evict : kact := fun s l =>
    match l with
    | Vars b true _ num => let '(out, items, _) := evict (Z.to_nat num) (h_pile s) (h_items s) in Some (with_items s items, Vars b true out num)
    | _ => Some (s, l)
    end.
  Definition a_bounds : kact := fun s l => match l with Vars _ true true _ => None | _ => Some (s, l) end.
  Definition a_shorten : kact := fun s l =>
    match l with Vars _ true _ num => Some (with_pile s (drop (Z.to_nat num) (h_pile s)), l) | _ => Some (s, l) end.
  Definition a_clean (perc : Z) (i : input) : list kact := [a_expired i; a_quota perc; a_evict; a_bounds; a_shorten].

  Definition sec_method (o : ksec) : method shared klocal :=
    match o with
    | KSet k d i => Method true true
        ([fun s l => Some (s, Vars (bool_decide (is_Some (h_items s !! k))) true false 0);                         (* 68 *)
          on (fun s => Shared (h_max s) (h_expire s) (<[in_loc i := Entry (in_t1 i) (in_t2 i) 0 d]> (h_heap s))
                         (<[k := in_loc i]> (h_items s)) (h_pile s) (h_gone s));                                               (* 69 *)
          (fun s l => match l with Vars true _ _ _ => Some (with_pile s (remove_first k (h_pile s)), l) | _ => Some (s, l) end);  (* 70-72 *)
          on (fun s => with_pile s (h_pile s ++ [k]));                                                              (* 73 *)
          (fun s l => Some (s, Vars false (bool_decide (rd_max1 (reads s i) > 0 /\ Z.of_nat (size (h_items s)) >= rd_max2 (reads s i))) false 0))]     (* 74 *)
         ++ a_clean 10 i ++ [finish (Done RUnit)]) start_vars
    | KSetTTL k dur => Method true true
        [(fun s l => Some (s, Found (h_items s !! k)));
         (fun s l => match l with
                     | Found (Some x) => Some (Shared (h_max s) (h_expire s)
                         (alter (fun e => Entry (e_ctime e) (e_rtime e) dur (e_data e)) x (h_heap s)) (h_items s) (h_pile s) (h_gone s), Done RUnit)
                     | _ => Some (s, Done RUnit)
                     end)] start_vars
    | KLook k => Method false true [(fun s _ => Some (s, Found (h_items s !! k)))] start_vars
    | KTouch k => Method true true
        [on (fun s => with_pile s (remove_first k (h_pile s))); on (fun s => with_pile s (h_pile s ++ [k])); finish (Done RUnit)] start_vars
    | KDel k => Method true true
        [on (fun s => with_items s (delete k (h_items s))); on (fun s => with_pile s (remove_first k (h_pile s))); finish (Done RUnit)] start_vars
    | KCount => Method false true [(fun s _ => Some (s, Done (RInt (Z.of_nat (size (h_items s))))))] start_vars
    | KClean perc i => Method true true
        (a_clean perc i ++ [fun s l => Some (s, match l with Vars _ _ _ num => Done (RInt (Z.max 0 num)) | _ => l end)]) start_vars
    | KFlush => Method true true [on (fun s => Shared (h_max s) (h_expire s) (h_heap s) ∅ (h_pile s) (h_gone s ++ [h_items s])); finish (Done RUnit)] start_vars
    end.

  (** The same sections in one piece, with the functions of CacheConc.v; [None]: panic. *)
  Definition sec_atomic (s : shared) (o : ksec) : shared * option klocal :=
    match o with
    | KSet k d i => let '(s', r) := cset s k d i in (s', match r with RPanic => None | _ => Some (Done r) end)
    | KSetTTL k dur =>
        (match h_items s !! k with
         | Some x => Shared (h_max s) (h_expire s) (alter (fun e => Entry (e_ctime e) (e_rtime e) dur (e_data e)) x (h_heap s)) (h_items s) (h_pile s) (h_gone s)
         | None => s
         end, Some (Done RUnit))
    | KLook k => (s, Some (Found (h_items s !! k)))
    | KTouch k => (Shared (h_max s) (h_expire s) (h_heap s) (h_items s) (remove_first k (h_pile s) ++ [k]) (h_gone s), Some (Done RUnit))
    | KDel k => (cdel s k, Some (Done RUnit))
    | KCount => (s, Some (Done (RInt (Z.of_nat (size (h_items s))))))
    | KClean perc i => let '(s', r) := cclean s perc (in_now i) (reads s i) in (s', match r with RPanic => None | _ => Some (Done r) end)
    | KFlush => (Shared (h_max s) (h_expire s) (h_heap s) ∅ (h_pile s) (h_gone s ++ [h_items s]), Some (Done RUnit))
    end.
End CacheLock.
Arguments ksec : clear implicits.
Arguments klocal : clear implicits.
