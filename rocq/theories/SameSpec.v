(** * Data with the same content at other addresses (C92). *)
From Verif Require Import GoBase DatasetModel DatasetSpec.

(** [R] pairs the addresses of two heaps. *)
Section Same.
  Context (R : loc -> loc -> Prop).
  Definition same_value (v v' : value) : Prop :=
    (v' = v /\ forall d, v <> VRef d) \/ exists d d', v = VRef d /\ v' = VRef d' /\ R d d'.
  (** The same kind of object with the same content, or no object. *)
  Inductive same_obj : option obj -> option obj -> Prop :=
  | same_none : same_obj None None
  | same_ds m m' : (forall k, option_Forall2 same_value (m !! k) (m' !! k)) -> same_obj (Some (ODs m)) (Some (ODs m'))
  | same_ts w w' : option_Forall2 R w w' -> same_obj (Some (OTs w)) (Some (OTs w'))
  | same_coll xs xs' : Forall2 (option_Forall2 R) xs xs' -> same_obj (Some (OColl xs)) (Some (OColl xs'))
  | same_collts xs xs' : Forall2 (option_Forall2 R) xs xs' -> same_obj (Some (OCollTS xs)) (Some (OCollTS xs')).
  Definition alike (h h' : heap) : Prop := forall l l', R l l' -> same_obj (h !! l) (h' !! l').
  Definition one_to_one : Prop := forall a b a' b', R a b -> R a' b' -> (a = a' <-> b = b').
End Same.

(** The ways from one object to another. *)
Inductive move := Key (k : bytes) | Unwrap | Index (i : nat).
Inductive way (h : heap) : loc -> list move -> loc -> Prop :=
| way_here l : way h l [] l
| way_key l m k d p x : h !! l = Some (ODs m) -> m !! k = Some (VRef d) -> way h d p x -> way h l (Key k :: p) x
| way_unwrap l d p x : h !! l = Some (OTs (Some d)) -> way h d p x -> way h l (Unwrap :: p) x
| way_index l xs i d p x : collection_at h l xs -> xs !! i = Some (Some d) -> way h d p x -> way h l (Index i :: p) x.
(** No object is reached from [l] in two ways. *)
Definition unshared (h : heap) (l : loc) : Prop := forall p q x, way h l p x -> way h l q x -> p = q.
