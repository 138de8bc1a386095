(** * Model of the XCache of the root package (xcache.go, version 1), sequential use.

    The code in the root directory is the older version of the module.  Clock, validator
    and iteration order are inputs as in CacheModel.v, from which [remove_first], [evict],
    [before_now], [quota] and the answers are taken: those lines are the same in both
    versions (xcache.go:79-91, 181-184, 165, 177-178). *)
From Verif Require Import GoBase CacheModel.
Local Open Scope Z_scope.

Section V1.
  Context {D : Type} (dnil : D).
  (** xcache.go:10-17 [XCacheEntry]: no TTL. *)
  Record entry1 := Entry1 { e1_ctime : Z; e1_rtime : Z; e1_data : D }.
  (** xcache.go:20-37 [XCache]. *)
  Record cache1 := Cache1 { c1_max : Z; c1_expire : Z; c1_items : gmap bytes entry1; c1_pile : list bytes }.
  (** xcache.go:45-56 [NewXCache]. *)
  Definition new_cache1 (maxitems expire : Z) : cache1 := Cache1 maxitems expire ∅ [].

  (** xcache.go:163-172, the first loop of [Clean]. *)
  Definition purge1 (expire : Z) (now : bytes -> Z) (items : gmap bytes entry1) : gmap bytes entry1 :=
    if decide (expire = 0) then items
    else filter (fun kx => before_now (e1_ctime kx.2) expire (now kx.1) = false) items.
  (** xcache.go:156-187 [Clean]. *)
  Definition clean1 (c : cache1) (perc : Z) (now : bytes -> Z) : cache1 * result D :=
    let items1 := purge1 (c1_expire c) now (c1_items c) in
    let num := quota (Z.of_nat (size items1)) perc in
    let '(panicked, items2, rest) := evict (Z.to_nat num) (c1_pile c) items1 in
    if panicked then (Cache1 (c1_max c) (c1_expire c) items2 (c1_pile c), RPanic)
    else (Cache1 (c1_max c) (c1_expire c) items2 rest, RInt (Z.max 0 num)).
  (** xcache.go:62-76 [Set]. *)
  Definition set1 (c : cache1) (k : bytes) (d : D) (tc tr : Z) (now : bytes -> Z) : cache1 * result D :=
    let present := bool_decide (is_Some (c1_items c !! k)) in
    let items1 := <[k := Entry1 tc tr d]> (c1_items c) in
    let pile1 := (if present then remove_first k (c1_pile c) else c1_pile c) ++ [k] in
    let c1 := Cache1 (c1_max c) (c1_expire c) items1 pile1 in
    if bool_decide (c1_max c > 0 /\ Z.of_nat (size items1) >= c1_max c) then
      let '(c2, r) := clean1 c1 10 now in
      match r with RPanic => (c2, RPanic) | _ => (c2, RUnit) end
    else (c1, RUnit).
  (** xcache.go:136-142 [Del]; the same two lines are at 106-109 and 119-122 in [Get]. *)
  Definition del1 (c : cache1) (k : bytes) : cache1 :=
    Cache1 (c1_max c) (c1_expire c) (delete k (c1_items c)) (remove_first k (c1_pile c)).
  (** xcache.go:97-132 [Get]. *)
  Definition get1 (c : cache1) (k : bytes) (v : validator) (t2 t3 : Z) : cache1 * result D :=
    match c1_items c !! k with
    | Some x =>
        if match v with Some f => negb (f k (e1_ctime x)) | None => false end then (del1 c k, RGet dnil true)
        else if negb (bool_decide (c1_expire c = 0)) && before_now (e1_ctime x) (c1_expire c) t2 then (del1 c k, RGet dnil true)
        else (Cache1 (c1_max c) (c1_expire c) (<[k := Entry1 (e1_ctime x) t3 (e1_data x)]> (c1_items c))
                     (remove_first k (c1_pile c) ++ [k]), RGet (e1_data x) false)
    | None => (c, RGet dnil false)
    end.
  (** xcache.go:192-210 [Verify]: the key is deleted from the items only (lines 202-204). *)
  Fixpoint verify_loop1 (f : bytes -> Z -> bool) (order : list bytes) (c : cache1) (i : Z) : cache1 * Z :=
    match order with
    | [] => (c, i)
    | k :: order' =>
        match c1_items c !! k with
        | Some x => if f k (e1_ctime x) then verify_loop1 f order' c i
                    else verify_loop1 f order' (Cache1 (c1_max c) (c1_expire c) (delete k (c1_items c)) (c1_pile c)) (i + 1)
        | None => verify_loop1 f order' c i
        end
    end.
  Definition verify1 (c : cache1) (v : validator) (now : bytes -> Z) (order : gmap bytes entry1 -> list bytes) : cache1 * result D :=
    let '(c1, r) := clean1 c 0 now in
    match r with
    | RInt i => match v with
                | Some f => let '(c2, i2) := verify_loop1 f (order (c1_items c1)) c1 i in (c2, RInt i2)
                | None => (c1, RInt i)
                end
    | _ => (c1, r)
    end.

  (** The calls; [V1Max] and [V1Expire] assign the exported fields. *)
  Inductive op1 :=
  | V1Set (k : bytes) (d : D) (tc tr : Z) (now : bytes -> Z)
  | V1Get (k : bytes) (v : validator) (t2 t3 : Z)
  | V1Del (k : bytes)
  | V1Count
  | V1Clean (perc : Z) (now : bytes -> Z)
  | V1Verify (v : validator) (now : bytes -> Z) (order : gmap bytes entry1 -> list bytes)
  | V1Flush
  | V1Max (m : Z)
  | V1Expire (e : Z).
  (** xcache.go:145-150 [Count], 214-219 [Flush]; the others as above. *)
  Definition step1 (c : cache1) (o : op1) : cache1 * result D :=
    match o with
    | V1Set k d tc tr now => set1 c k d tc tr now
    | V1Get k v t2 t3 => get1 c k v t2 t3
    | V1Del k => (del1 c k, RUnit)
    | V1Count => (c, RInt (Z.of_nat (size (c1_items c))))
    | V1Clean perc now => clean1 c perc now
    | V1Verify v now order => verify1 c v now order
    | V1Flush => (Cache1 (c1_max c) (c1_expire c) ∅ (c1_pile c), RUnit)
    | V1Max m => (Cache1 m (c1_expire c) (c1_items c) (c1_pile c), RUnit)
    | V1Expire e => (Cache1 (c1_max c) e (c1_items c) (c1_pile c), RUnit)
    end.
  Fixpoint run1 (c : cache1) (ops : list op1) : cache1 * list (result D) :=
    match ops with
    | [] => (c, [])
    | o :: ops' => let '(c1, r) := step1 c o in let '(c2, rs) := run1 c1 ops' in (c2, r :: rs)
    end.

  (** ** The same calls on version 2 *)
  (** A version 2 iteration order visits what the version 1 order visits. *)
  Definition down (x : entry D) : entry1 := Entry1 (e_ctime x) (e_rtime x) (e_data x).
  Definition up (o : op1) : op D :=
    match o with
    | V1Set k d tc tr now => OSet k d tc tr now
    | V1Get k v t2 t3 => OGet k v 0 t2 t3
    | V1Del k => ODel k
    | V1Count => OCount
    | V1Clean perc now => OClean perc now
    | V1Verify v now order => OVerify v now (fun m => order (down <$> m))
    | V1Flush => OFlush
    | V1Max m => OMax m
    | V1Expire e => OExpire e
    end.
  (** Verify with a validator is the call on which the versions differ. *)
  Definition no_validation (o : op1) : Prop := match o with V1Verify (Some _) _ _ => False | _ => True end.
End V1.
Arguments entry1 D : clear implicits.
Arguments cache1 D : clear implicits.
Arguments op1 D : clear implicits.
