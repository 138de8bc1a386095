(** * What Clone returns while other goroutines change the data (C122). *)
From Verif Require Import GoBase DatasetModel DatasetSpec ParModel SnapModel.
Local Open Scope nat_scope.

(** The list of a collection, thread safe or not. *)
Definition list_at (h : heap) (c : loc) (ts : bool) (xs : list (option loc)) : Prop :=
  h !! c = Some (if ts then OCollTS xs else OColl xs).
(** [unfolds h l t]: all that is below [l] in [h], without sharing, is [t]. *)
Inductive unfolds (h : heap) : loc -> tree -> Prop :=
| un_ds l m ents es : h !! l = Some (ODs m) -> ents ≡ₚ map_to_list m -> un_entries h ents es -> unfolds h l (Node es)
| un_ts l d t : h !! l = Some (OTs (Some d)) -> unfolds h d t -> unfolds h l (Wrap t)
| un_coll l b xs ts : list_at h l b xs -> un_elements h xs ts -> unfolds h l (Coll b ts)
with un_entries (h : heap) : list (bytes * value) -> list (bytes * tree) -> Prop :=
| ue_nil : un_entries h [] []
| ue_leaf k v l es : (forall d, v <> VRef d) -> un_entries h l es -> un_entries h ((k, v) :: l) ((k, Leaf v) :: es)
| ue_ref k d t l es : unfolds h d t -> un_entries h l es -> un_entries h ((k, VRef d) :: l) ((k, t) :: es)
with un_elements (h : heap) : list (option loc) -> list tree -> Prop :=
| ul_nil : un_elements h [] []
| ul_cons d t xs ts : unfolds h d t -> un_elements h xs ts -> un_elements h (Some d :: xs) (t :: ts).
Scheme unfolds_mind := Minimality for unfolds Sort Prop
  with un_entries_mind := Minimality for un_entries Sort Prop
  with un_elements_mind := Minimality for un_elements Sort Prop.
Combined Scheme unfolds_mutind from unfolds_mind, un_entries_mind, un_elements_mind.

(** The same over a course of time: [H m] is the data at the moment [m].  Every object is looked at once,
    one after the other, from the moment [i] to the moment [j]. *)
Section Snap.
  Context (H : nat -> heap).
  Inductive snap : nat -> loc -> nat -> tree -> Prop :=
  | sn_ds i m l mp ents es j : i <= m -> H m !! l = Some (ODs mp) -> ents ≡ₚ map_to_list mp -> snap_entries (S m) ents j es -> snap i l j (Node es)
  | sn_ts i m l d t j : i <= m -> H m !! l = Some (OTs (Some d)) -> snap (S m) d j t -> snap i l j (Wrap t)
  | sn_coll i m l b xs ts j : i <= m -> list_at (H m) l b xs -> snap_elements (S m) xs j ts -> snap i l j (Coll b ts)
  with snap_entries : nat -> list (bytes * value) -> nat -> list (bytes * tree) -> Prop :=
  | se_nil i : snap_entries i [] i []
  | se_leaf i k v l es j : (forall d, v <> VRef d) -> snap_entries i l j es -> snap_entries i ((k, v) :: l) j ((k, Leaf v) :: es)
  | se_ref i k d t l es i1 j : snap i d i1 t -> snap_entries i1 l j es -> snap_entries i ((k, VRef d) :: l) j ((k, t) :: es)
  with snap_elements : nat -> list (option loc) -> nat -> list tree -> Prop :=
  | sl_nil i : snap_elements i [] i []
  | sl_cons i d t xs ts i1 j : snap i d i1 t -> snap_elements i1 xs j ts -> snap_elements i (Some d :: xs) j (t :: ts).
End Snap.
Scheme snap_mind := Minimality for snap Sort Prop
  with snap_entries_mind := Minimality for snap_entries Sort Prop
  with snap_elements_mind := Minimality for snap_elements Sort Prop.
Combined Scheme snap_mutind from snap_mind, snap_entries_mind, snap_elements_mind.

(** Everything that is referred to exists; nothing nil where a dataset is expected. *)
Definition whole (h : heap) : Prop :=
  (forall l m k r, h !! l = Some (ODs m) -> m !! k = Some (VRef r) -> is_Some (h !! r)) /\
  (forall l d, h !! l = Some (OTs d) -> exists r, d = Some r /\ is_Some (h !! r)) /\
  (forall l xs x, collection_at h l xs -> x ∈ xs -> exists r, x = Some r /\ is_Some (h !! r)).
(** No object disappears. *)
Definition kept (h h' : heap) : Prop := forall l, is_Some (h !! l) -> is_Some (h' !! l).
(** A goroutine whose accesses keep the data whole, whatever others like it do. *)
Fixpoint mindful {A} (h0 : heap) (p : act A) : Prop :=
  match p with
  | Act w k => forall h, whole h -> kept h0 h -> whole (w h) /\ kept h (w h) /\ mindful (w h) (k h)
  | _ => True
  end.
(** A field of the copy, by the keys on the way to it. *)
Inductive leaf : tree -> list bytes -> value -> Prop :=
| lf_wrap t ks v : leaf t ks v -> leaf (Wrap t) ks v
| lf_here es k v : (k, Leaf v) ∈ es -> leaf (Node es) [k] v
| lf_below es k t ks v : (k, t) ∈ es -> leaf t ks v -> leaf (Node es) (k :: ks) v.
