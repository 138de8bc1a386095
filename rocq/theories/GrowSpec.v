(** * Data that only grow while templates are executed (C119).

    Goroutines that set and delete fields, make new objects and add datasets to the end of
    collections; nothing else of the data is taken away. *)
From Verif Require Import GoBase DatasetModel DatasetSpec ParModel.

(** Elements of collections are datasets, wrappers have something inside. *)
Definition sound (h : heap) : Prop := wf h /\ forall c xs, collection_at h c xs -> None ∉ xs.
(** Datasets stay datasets; collections have at least their elements, at the same places. *)
Definition grown (h h' : heap) : Prop :=
  (forall d, dataset_at h d -> dataset_at h' d) /\
  (forall c xs, collection_at h c xs -> exists ys, collection_at h' c (xs ++ ys)).
(** A goroutine whose accesses let the data grow, whatever grows beside it; what it has made is there afterwards. *)
Fixpoint careful {A} (h0 : heap) (p : act A) : Prop :=
  match p with
  | Act w k => forall h, sound h -> grown h0 h -> sound (w h) /\ grown h (w h) /\ careful (w h) (k h)
  | _ => True
  end.
(** ** Some of these goroutines *)
(** &XDataset{...}; [new] gives the address. *)
Definition literal (new : heap -> loc) (m : gmap bytes value) : act loc := Act (fun h => <[new h := ODs m]> h) (fun h => Ret (new h)).
(** collection.Push(&XDataset{...}). *)
Definition push_new (new : heap -> loc) (c : loc) (m : gmap bytes value) : act unit :=
  d <~ literal new m; write (fun h => cpush h c (Some d)).
(** The same again and again. *)
Fixpoint push_all (new : heap -> loc) (c : loc) (ms : list (gmap bytes value)) : act bytes :=
  match ms with [] => Ret [] | m :: ms' => _ <~ push_new new c m; push_all new c ms' end.
