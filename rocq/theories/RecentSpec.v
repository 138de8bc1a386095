(** * How long an entry is safe from eviction (C101). *)
From Verif Require Import GoBase CacheModel CacheSpec.
Local Open Scope Z_scope.

(** Nine tenths of the limit, a limit below 10 counting as 10. *)
Definition safe_share (M : Z) : Z := Z.max M 10 - Z.max M 10 / 10.

Section Recent.
  Context {D : Type}.
  Notation event := (op D * result D)%type.
  (** Fewer than [n] other keys were used since the last use of [k]. *)
  Definition recent (k : bytes) (n : Z) (tr : list event) : Prop :=
    exists s : gset bytes, (forall b, used_after b k tr -> b ∈ s) /\ Z.of_nat (size s) < n.
  (** An operation that gives no other reason than its age to forget the value of [k] stored at [tc]; the limit, if any, is at least [M]. *)
  Definition spares (M : Z) (k : bytes) (tc : Z) (o : op D) : Prop :=
    match o with
    | OSet k' _ _ _ _ | OSetTTL k' _ | ODel k' => k' <> k
    | OGet k' v _ _ _ => k' = k -> accepts v k tc
    | OClean p _ => -100 <= p <= 0
    | OVerify v _ order => iter_order order /\ accepts v k tc
    | OFlush => False
    | OExpire e => e = 0
    | OMax m => m <= 0 \/ M <= m
    | OCount => True
    end.
End Recent.
(** Fewer than [n] keys other than [k] occur as uses in the history. *)
Definition few_others {D} (k : bytes) (n : Z) (tr : list (op D * result D)) : Prop :=
  exists s : gset bytes, (forall e b, e ∈ tr -> uses b e -> b <> k -> b ∈ s) /\ Z.of_nat (size s) < n.
