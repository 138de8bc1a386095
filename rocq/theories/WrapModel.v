(** * The cache with 64 bit arithmetic.

    CacheModel.v computes the share to evict with unbounded integers.  Go's int wraps around: v2/xcache.go:218 multiplies the number
    of entries by the percentage.  The other sums of the cache count entries and cannot overflow. *)
From Verif Require Import GoBase CacheModel.
Local Open Scope Z_scope.

(** The value of a 64 bit int after an overflow. *)
Definition int64 (z : Z) : Z := (z + 2 ^ 63) mod 2 ^ 64 - 2 ^ 63.

Section Wrap.
  Context {D : Type} (dnil : D).
  (** v2/xcache.go:216-218. *)
  Definition quota64 (total perc : Z) : Z := Z.quot (int64 (total * perc)) 100.
  (** v2/xcache.go:198-227 [mClean], as in CacheModel.v. *)
  Definition mclean64 (c : cache D) (perc : Z) (now : bytes -> Z) : cache D * result D :=
    let items1 := purge (c_expire c) now (c_items c) in
    let num := quota64 (Z.of_nat (size items1)) perc in
    let '(panicked, items2, rest) := evict (Z.to_nat num) (c_pile c) items1 in
    if panicked then (Cache (c_max c) (c_expire c) items2 (c_pile c), RPanic)
    else (Cache (c_max c) (c_expire c) items2 rest, RInt (Z.max 0 num)).
  (** v2/xcache.go:64-78 [Set]. *)
  Definition set64 (c : cache D) (k : bytes) (d : D) (tc tr : Z) (now : bytes -> Z) : cache D * result D :=
    let present := bool_decide (is_Some (c_items c !! k)) in
    let items1 := <[k := Entry tc tr 0 d]> (c_items c) in
    let pile1 := (if present then remove_first k (c_pile c) else c_pile c) ++ [k] in
    let c1 := Cache (c_max c) (c_expire c) items1 pile1 in
    if bool_decide (c_max c > 0 /\ Z.of_nat (size items1) >= c_max c) then
      let '(c2, r) := mclean64 c1 10 now in
      match r with RPanic => (c2, RPanic) | _ => (c2, RUnit) end
    else (c1, RUnit).
  (** v2/xcache.go:242-264 [Verify]. *)
  Definition verify64 (c : cache D) (v : validator) (now : bytes -> Z) (order : gmap bytes (entry D) -> list bytes) : cache D * result D :=
    let '(c1, r) := mclean64 c 0 now in
    match r with
    | RInt i => match v with
                | Some f => let '(c2, i2) := verify_loop f (order (c_items c1)) c1 i in (c2, RInt i2)
                | None => (c1, RInt i)
                end
    | _ => (c1, r)
    end.
  Definition step64 (c : cache D) (o : op D) : cache D * result D :=
    match o with
    | OSet k d tc tr now => set64 c k d tc tr now
    | OClean perc now => mclean64 c perc now
    | OVerify v now order => verify64 c v now order
    | _ => step dnil c o
    end.
  Fixpoint run64 (c : cache D) (ops : list (op D)) : cache D * list (op D * result D) :=
    match ops with
    | [] => (c, [])
    | o :: ops' => let '(c1, r) := step64 c o in let '(c2, tr) := run64 c1 ops' in (c2, (o, r) :: tr)
    end.
End Wrap.

(** Caches of the examples. *)
Definition four_sets : list (op Z) := map (fun s => OSet (B s) 7 1 1 (fun _ => 1)) ["a"; "b"; "c"; "d"]%string.
Definition three : cache Z := (run64 0 (new_cache 0 0) (take 3 four_sets)).1.
