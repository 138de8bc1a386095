(** * Ways through the data: the meaning of a path as a walk from object to object. *)
From Verif Require Import GoBase DatasetModel DatasetSpec.

(** The text of a path given by its segments. *)
Definition joined (segs : list bytes) : bytes :=
  match segs with [] => [] | s :: r => s ++ concat (map (cons ">"%char) r) end.
Definition segments (p : list bytes) : Prop := Forall (fun w => ">"%char ∉ w) p.

(** [walk h l p x]: the segments [p] lead from the dataset [l] to the dataset [x]; each names
    a sub-dataset, or a collection and then one of its elements. *)
Inductive walk (h : heap) : loc -> list bytes -> loc -> Prop :=
| wk_here l : walk h l [] l
| wk_wrap l d p x : h !! l = Some (OTs (Some d)) -> p <> [] -> walk h d p x -> walk h l p x
| wk_dataset l m k d p x : h !! l = Some (ODs m) -> m !! k = Some (VRef d) -> dataset_at h d ->
    walk h d p x -> walk h l (k :: p) x
| wk_element l m k c xs s i d p x : h !! l = Some (ODs m) -> m !! k = Some (VRef c) -> collection_at h c xs ->
    denotes s (Z.of_nat i) -> xs !! i = Some (Some d) -> walk h d p x -> walk h l (k :: s :: p) x.
(** [v] is found for [p] under a key that contains the separator: a first part of [p] leads to
    a dataset in which the next segment is a plain value, and the rest of the text is one key. *)
Inductive literally (h : heap) : loc -> list bytes -> value -> Prop :=
| li_here l m j b w v : h !! l = Some (ODs m) -> b <> [] -> m !! j = Some w -> plain h w ->
    m !! joined (j :: b) = Some v -> literally h l (j :: b) v
| li_wrap l d p v : h !! l = Some (OTs (Some d)) -> literally h d p v -> literally h l p v
| li_walk l a y p v : a <> [] -> walk h l a y -> literally h y p v -> literally h l (a ++ p) v.
(** [moved h c l p p' x]: [p] leads from [l] to [x], and [p'] is [p] with the number of every element of the collection [c] on
    the way larger by one. *)
Inductive moved (h : heap) (c : loc) : loc -> list bytes -> list bytes -> loc -> Prop :=
| mv_here l : moved h c l [] [] l
| mv_wrap l d p p' x : h !! l = Some (OTs (Some d)) -> p <> [] -> moved h c d p p' x -> moved h c l p p' x
| mv_dataset l m k d p p' x : h !! l = Some (ODs m) -> m !! k = Some (VRef d) -> dataset_at h d ->
    moved h c d p p' x -> moved h c l (k :: p) (k :: p') x
| mv_element l m k c' xs s i d p p' x : h !! l = Some (ODs m) -> m !! k = Some (VRef c') -> collection_at h c' xs -> c' <> c ->
    denotes s (Z.of_nat i) -> xs !! i = Some (Some d) -> moved h c d p p' x -> moved h c l (k :: s :: p) (k :: s :: p') x
| mv_moved l m k xs s s' i d p p' x : h !! l = Some (ODs m) -> m !! k = Some (VRef c) -> collection_at h c xs ->
    denotes s (Z.of_nat i) -> denotes s' (Z.of_nat i + 1) -> xs !! i = Some (Some d) -> moved h c d p p' x ->
    moved h c l (k :: s :: p) (k :: s' :: p') x.
