(** * Loading on demand through the cache (C130). *)
From Verif Require Import GoBase CacheModel CacheSpec.
Local Open Scope nat_scope.

(** A request of a client: the key, the validator and the clock readings of the calls. *)
Record request := Req { q_key : bytes; q_valid : validator; q_get : Z * Z * Z; q_set : Z * Z; q_now : bytes -> Z }.
(** The validator accepts whatever was stored under the key. *)
Definition agreeable (q : request) : Prop := forall t, accepts (q_valid q) (q_key q) t.

Section Client.
  Context {D : Type} (dnil : D) (is_nil : D -> bool) (load : bytes -> D).
  (** The client asks the cache; when the answer is nil, it loads the value and stores it. What the client gets, and whether
      the cache had it. *)
  Definition serve (c : cache D) (q : request) : cache D * (D * bool) :=
    let '(t1, t2, t3) := q_get q in let '(tc, tr) := q_set q in
    match step dnil c (OGet (q_key q) (q_valid q) t1 t2 t3) with
    | (c1, RGet d _) => if is_nil d then ((step dnil c1 (OSet (q_key q) (load (q_key q)) tc tr (q_now q))).1, (load (q_key q), false)) else (c1, (d, true))
    | (c1, _) => (c1, (dnil, true))
    end.
  Fixpoint serve_all (c : cache D) (qs : list request) : cache D * list (D * bool) :=
    match qs with
    | [] => (c, [])
    | q :: r => let '(c1, a) := serve c q in let '(c2, l) := serve_all c1 r in (c2, a :: l)
    end.
  (** Maxitems M, no expiry. *)
  Definition answers (M : Z) (qs : list request) : list (D * bool) := (serve_all (new_cache M 0) qs).2.
  (** How often the client had to load. *)
  Definition loads (M : Z) (qs : list request) : nat := length (filter (fun a => a.2 = false) (answers M qs)).
End Client.

(** The limit; nine tenths of it, rounded up; a limit below 10 counts as 10. *)
Definition full (M : Z) : nat := Z.to_nat (Z.max M 10).
Definition cleaned (M : Z) : nat := full M - full M / 10.
(** How many entries the cache has after [m] loads. *)
Definition held (M : Z) (m : nat) : nat :=
  if bool_decide (M <= 0)%Z then m else if bool_decide (m < full M) then m else cleaned M + (m - cleaned M) mod (full M - cleaned M).
(** The number of different keys in the requests. *)
Definition different (qs : list request) : nat := length (remove_dups (map q_key qs)).
