(** * What a user expects of XCache, in terms of the history of calls and answers.

    Nothing here mentions the recency list of the implementation. *)
From Verif Require Import GoBase CacheModel.
Local Open Scope Z_scope.

Section CacheSpec.
  Context {D : Type} (dnil : D).
  Implicit Types (k : bytes) (d : D).

  (** One call together with its answer. *)
  Notation event := (op D * result D)%type.

  (** A legal map iteration order: a function listing every key of a map once. *)
  Definition iter_order (order : gmap bytes (entry D) -> list bytes) : Prop :=
    forall m, order m ≡ₚ (map_to_list m).*1.

  (** The value the history says is stored under [k]: the last Set, cancelled by a
      later Del, Flush, or a Get that answered "invalidated". *)
  Definition latest_ev (k : bytes) (acc : option D) (e : event) : option D :=
    match e with
    | (OSet k' d _ _ _, _) => if decide (k' = k) then Some d else acc
    | (ODel k', _) => if decide (k' = k) then None else acc
    | (OFlush, _) => None
    | (OGet k' _ _ _ _, RGet _ true) => if decide (k' = k) then None else acc
    | _ => acc
    end.
  Definition latest (k : bytes) (tr : list event) : option D := fold_left (latest_ev k) tr None.

  (** Does this event count as a use of [k] (for "least recently used")? *)
  Definition uses (k : bytes) (e : event) : Prop :=
    match e with
    | (OSet k' _ _ _ _, _) => k' = k
    | (OGet k' _ _ _ _, RGet _ false) => k' = k
    | _ => False
    end.

  (** [b] was used after the last use of [a]. *)
  Definition used_after (b a : bytes) (tr : list event) : Prop :=
    exists tr1 e tr2, tr = tr1 ++ e :: tr2 /\ uses b e /\ ~ uses a e /\ Forall (fun e' => ~ uses a e') tr2.

  (** Histories without Flush, with Expire left untouched, and with legal percentages. *)
  Definition plain_op (o : op D) : Prop :=
    match o with
    | OFlush => False
    | OExpire e => e = 0
    | OClean p _ => -100 <= p <= 100
    | _ => True
    end.

  (** Percentages within the documented range or its opposite.  Beyond, the product of line 218 may wrap around (C98). *)
  Definition perc_ok (o : op D) : Prop :=
    match o with OClean p _ => -100 <= p <= 100 | _ => True end.

  (** No eviction is ever requested. *)
  Definition no_evict_op (o : op D) : Prop :=
    match o with
    | OMax m => m <= 0
    | OClean p _ => -100 <= p <= 0
    | OVerify _ _ order => iter_order order
    | _ => True
    end.

  Definition max_untouched (o : op D) : Prop :=
    match o with OMax _ => False | _ => True end.

  (** An event that ends the life of the value stored under [k]. *)
  Definition cancels (k : bytes) (e : event) : Prop :=
    match e with
    | (OSet k' _ _ _ _, _) => k' = k
    | (ODel k', _) => k' = k
    | (OFlush, _) => True
    | (OGet k' _ _ _ _, RGet _ true) => k' = k
    | _ => False
    end.

  (** In history [tr], the last Set of [k] stored [d] and nothing cancelled it since. *)
  Definition last_set (k : bytes) (d : D) (tr : list event) : Prop :=
    exists tr1 tc t now r tr2,
      tr = tr1 ++ (OSet k d tc t now, r) :: tr2 /\ Forall (fun e => ~ cancels k e) tr2.

  (** [t] is not after the end of life of something created at [tc]. *)
  Definition fresh (expire tc t : Z) : Prop := expire = 0 \/ t <= tc + expire.
  Definition accepts (v : validator) (k : bytes) (tc : Z) : Prop :=
    match v with Some f => f k tc = true | None => True end.

  (** An operation that gives no reason to forget the value stored under [k] at time
      [tc] in a cache of lifetime [expire]. *)
  Definition gentle (k : bytes) (tc expire : Z) (o : op D) : Prop :=
    match o with
    | OSet k' _ _ _ _ | OSetTTL k' _ | ODel k' => k' <> k
    | OGet k' v _ t2 _ => k' = k -> accepts v k tc /\ fresh expire tc t2
    | OClean p now => -100 <= p <= 0 /\ fresh expire tc (now k)
    | OVerify v now order => iter_order order /\ accepts v k tc /\ fresh expire tc (now k)
    | OFlush => False
    | OExpire e => e = expire
    | OMax m => m <= 0
    | OCount => True
    end.

  (** ** The expiring map: the intended meaning of an unlimited cache. *)
  Record sentry := SEntry { s_ctime : Z; s_ttl : Z; s_data : D }.
  Record smap := SMap { sm_expire : Z; sm_map : gmap bytes sentry }.

  Definition s_alive_at (expire : Z) (x : sentry) (t : Z) : bool :=
    bool_decide (expire = 0 \/ t <= s_ctime x + expire).
  Definition s_ttl_alive (x : sentry) (t : Z) : bool :=
    bool_decide (s_ttl x = 0 \/ t <= s_ctime x + s_ttl x).
  Definition s_valid (v : validator) (k : bytes) (x : sentry) : bool :=
    match v with Some f => f k (s_ctime x) | None => true end.

  Definition spec_step (m : smap) (o : op D) : smap * result D :=
    let upd x := SMap (sm_expire m) x in
    match o with
    | OSet k d tc _ _ => (upd (<[k := SEntry tc 0 d]> (sm_map m)), RUnit)
    | OSetTTL k dur =>
        (upd (alter (fun x => SEntry (s_ctime x) dur (s_data x)) k (sm_map m)), RUnit)
    | OGet k v t1 t2 _ =>
        match sm_map m !! k with
        | None => (m, RGet dnil false)
        | Some x => if s_ttl_alive x t1 && s_valid v k x && s_alive_at (sm_expire m) x t2
                    then (m, RGet (s_data x) false)
                    else (upd (delete k (sm_map m)), RGet dnil true)
        end
    | ODel k => (upd (delete k (sm_map m)), RUnit)
    | OCount => (m, RInt (Z.of_nat (size (sm_map m))))
    | OClean _ now => (upd (filter (fun kx => s_alive_at (sm_expire m) kx.2 (now kx.1)) (sm_map m)), RInt 0)
    | OVerify v now _ =>
        let alive := filter (fun kx => s_alive_at (sm_expire m) kx.2 (now kx.1)) (sm_map m) in
        let valid := filter (fun kx => s_valid v kx.1 kx.2) alive in
        (upd valid, RInt (Z.of_nat (size alive) - Z.of_nat (size valid)))
    | OFlush => (upd ∅, RUnit)
    | OMax _ => (m, RUnit)
    | OExpire e => (SMap e (sm_map m), RUnit)
    end.

  Fixpoint spec_run (m : smap) (ops : list (op D)) : list (result D) :=
    match ops with
    | [] => []
    | o :: ops' => let '(m1, r) := spec_step m o in r :: spec_run m1 ops'
    end.

End CacheSpec.
