(** * Model of XCache (v2/xcache.go), sequential use.

    Every operation takes as arguments what the Go code obtains from outside: the
    readings of [time.Now()], the validator in force, and the order in which Go
    iterates the item map.  Times and durations are integers (nanoseconds); Go's
    saturation of [time.Time.Add] at the far ends of the time line is not modelled. *)
From Verif Require Import GoBase.
Local Open Scope Z_scope.

(** v2/xcache.go:95-107 [removeFromPile]: removes the first occurrence. *)
Fixpoint remove_first (k : bytes) (pile : list bytes) : list bytes :=
  match pile with
  | [] => []
  | x :: r => if decide (x = k) then r else x :: remove_first k r
  end.

(** v2/xcache.go:222-225, the eviction loop: [n] iterations over the head of the
    pile.  The boolean says that [c.pile[i]] was out of range (panic). *)
Fixpoint evict {E : Type} (n : nat) (pile : list bytes) (items : gmap bytes E)
  : bool * gmap bytes E * list bytes :=
  match n with
  | O => (false, items, pile)
  | S n' => match pile with
            | [] => (true, items, [])
            | k :: pile' => evict n' pile' (delete k items)
            end
  end.

Section CacheModel.
  (** Values are [interface{}] in Go: an arbitrary type with a distinguished [nil]. *)
  Context {D : Type} (dnil : D).

  (** v2/xcache.go:10-20 [XCacheEntry]. *)
  Record entry := Entry { e_ctime : Z; e_rtime : Z; e_ttl : Z; e_data : D }.

  (** v2/xcache.go:23-39 [XCache].  ID is informative only, the mutex is in CacheConc.v,
      the Validator is an argument of the operations that call it. *)
  Record cache := Cache {
    c_max : Z;                       (* Maxitems *)
    c_expire : Z;                    (* Expire *)
    c_items : gmap bytes entry;      (* items *)
    c_pile : list bytes              (* pile, oldest first *)
  }.

  Definition validator := option (bytes -> Z -> bool).

  (** v2/xcache.go:47-58 [NewXCache]. *)
  Definition new_cache (maxitems expire : Z) : cache :=
    Cache maxitems expire ∅ [].

  (** [t.Add(d).Before(now)], used at v2/xcache.go:125, 153, 206. *)
  Definition before_now (ctime d now : Z) : bool := ctime + d <? now.

  (** v2/xcache.go:203-214, first part of [mClean]: removes the entries expired by
      [Expire].  The clock is read once per visited entry, hence a reading per key. *)
  Definition purge (expire : Z) (now : bytes -> Z) (items : gmap bytes entry) : gmap bytes entry :=
    if decide (expire = 0) then items
    else filter (fun kx => before_now (e_ctime kx.2) expire (now kx.1) = false) items.

  Inductive result :=
  | RUnit
  | RInt (n : Z)
  | RGet (d : D) (invalid : bool)
  | RPanic.

  (** v2/xcache.go:216-218: how many entries to evict; Go's [/] truncates. *)
  Definition quota (total perc : Z) : Z := Z.quot (total * perc) 100.

  (** v2/xcache.go:198-227 [mClean].  When the loop panics the pile is not yet
      truncated.  The counter of expired entries ([i++], line 211) is overwritten by
      [for i = 0] (line 222): it does not influence the result. *)
  Definition mclean (c : cache) (perc : Z) (now : bytes -> Z) : cache * result :=
    let items1 := purge (c_expire c) now (c_items c) in
    let num := quota (Z.of_nat (size items1)) perc in
    let '(panicked, items2, rest) := evict (Z.to_nat num) (c_pile c) items1 in
    if panicked then (Cache (c_max c) (c_expire c) items2 (c_pile c), RPanic)
    else (Cache (c_max c) (c_expire c) items2 rest, RInt (Z.max 0 num)).

  (** v2/xcache.go:64-78 [Set].  [tc], [tr] are the two clock readings of line 69,
      [now] those of a cleaning. *)
  Definition set (c : cache) (k : bytes) (d : D) (tc tr : Z) (now : bytes -> Z) : cache * result :=
    let present := bool_decide (is_Some (c_items c !! k)) in
    let items1 := <[k := Entry tc tr 0 d]> (c_items c) in
    let pile1 := (if present then remove_first k (c_pile c) else c_pile c) ++ [k] in
    let c1 := Cache (c_max c) (c_expire c) items1 pile1 in
    if bool_decide (c_max c > 0 /\ Z.of_nat (size items1) >= c_max c) then
      let '(c2, r) := mclean c1 10 now in
      match r with RPanic => (c2, RPanic) | _ => (c2, RUnit) end
    else (c1, RUnit).

  (** v2/xcache.go:84-91 [SetTTL]. *)
  Definition set_ttl (c : cache) (k : bytes) (dur : Z) : cache :=
    match c_items c !! k with
    | Some x => Cache (c_max c) (c_expire c)
                      (<[k := Entry (e_ctime x) (e_rtime x) dur (e_data x)]> (c_items c)) (c_pile c)
    | None => c
    end.

  (** v2/xcache.go:178-184 [Del]. *)
  Definition del (c : cache) (k : bytes) : cache :=
    Cache (c_max c) (c_expire c) (delete k (c_items c)) (remove_first k (c_pile c)).

  (** v2/xcache.go:124-166: is the entry expired by its TTL, rejected by the
      validator, or expired by [Expire]?  The clock is read anew for each test. *)
  Definition rejected (expire : Z) (v : validator) (k : bytes) (x : entry) (t1 t2 : Z) : bool :=
    (negb (bool_decide (e_ttl x = 0)) && before_now (e_ctime x) (e_ttl x) t1)
    || match v with Some f => negb (f k (e_ctime x)) | None => false end
    || (negb (bool_decide (expire = 0)) && before_now (e_ctime x) expire t2).

  (** v2/xcache.go:121-175 [Get].  [t3] is the reading stored as last read time. *)
  Definition get (c : cache) (k : bytes) (v : validator) (t1 t2 t3 : Z) : cache * result :=
    match c_items c !! k with
    | Some x =>
        if rejected (c_expire c) v k x t1 t2 then (del c k, RGet dnil true)
        else (Cache (c_max c) (c_expire c)
                    (<[k := Entry (e_ctime x) t3 (e_ttl x) (e_data x)]> (c_items c))
                    (remove_first k (c_pile c) ++ [k]),
              RGet (e_data x) false)
    | None => (c, RGet dnil false)
    end.

  (** v2/xcache.go:242-264 [Verify]: [Clean(0)], then, if there is a validator, each
      entry is visited in some iteration order (chosen by [order], see [iter_order])
      and deleted when rejected.  The result of [Clean(0)] plus the number of deletions. *)
  Fixpoint verify_loop (f : bytes -> Z -> bool) (order : list bytes) (c : cache) (i : Z) : cache * Z :=
    match order with
    | [] => (c, i)
    | k :: order' =>
        match c_items c !! k with
        | Some x => if f k (e_ctime x) then verify_loop f order' c i
                    else verify_loop f order' (del c k) (i + 1)
        | None => verify_loop f order' c i
        end
    end.

  Definition verify (c : cache) (v : validator) (now : bytes -> Z)
      (order : gmap bytes entry -> list bytes) : cache * result :=
    let '(c1, r) := mclean c 0 now in
    match r with
    | RInt i => match v with
                | Some f => let '(c2, i2) := verify_loop f (order (c_items c1)) c1 i in (c2, RInt i2)
                | None => (c1, RInt i)
                end
    | _ => (c1, r)
    end.

  (** v2/xcache.go:268-273 [Flush]: only the item map is replaced. *)
  Definition flush (c : cache) : cache := Cache (c_max c) (c_expire c) ∅ (c_pile c).

  (** The API.  [OMax] and [OExpire] are assignments to the exported fields. *)
  Inductive op :=
  | OSet (k : bytes) (d : D) (tc tr : Z) (now : bytes -> Z)
  | OSetTTL (k : bytes) (dur : Z)
  | OGet (k : bytes) (v : validator) (t1 t2 t3 : Z)
  | ODel (k : bytes)
  | OCount
  | OClean (perc : Z) (now : bytes -> Z)
  | OVerify (v : validator) (now : bytes -> Z) (order : gmap bytes entry -> list bytes)
  | OFlush
  | OMax (m : Z)
  | OExpire (e : Z).

  (** v2/xcache.go:187-192 [Count], 233-237 [Clean]; the others as above. *)
  Definition step (c : cache) (o : op) : cache * result :=
    match o with
    | OSet k d tc tr now => set c k d tc tr now
    | OSetTTL k dur => (set_ttl c k dur, RUnit)
    | OGet k v t1 t2 t3 => get c k v t1 t2 t3
    | ODel k => (del c k, RUnit)
    | OCount => (c, RInt (Z.of_nat (size (c_items c))))
    | OClean perc now => mclean c perc now
    | OVerify v now order => verify c v now order
    | OFlush => (flush c, RUnit)
    | OMax m => (Cache m (c_expire c) (c_items c) (c_pile c), RUnit)
    | OExpire e => (Cache (c_max c) e (c_items c) (c_pile c), RUnit)
    end.

  (** Execution of a history; the trace pairs each operation with its answer. *)
  Fixpoint run (c : cache) (ops : list op) : cache * list (op * result) :=
    match ops with
    | [] => (c, [])
    | o :: ops' => let '(c1, r) := step c o in
                   let '(c2, tr) := run c1 ops' in (c2, (o, r) :: tr)
    end.

End CacheModel.
Arguments entry D : clear implicits.
Arguments cache D : clear implicits.
Arguments result D : clear implicits.
Arguments op D : clear implicits.
