(** * Heaps that a program can build with the API of datasets and collections. *)
From Verif Require Import GoBase DatasetModel LangModel DatasetSpec TemplateModel RenderSpec.
Local Open Scope Z_scope.

(** A program can only hand over values it has: references to existing objects, datasets as elements. *)
Definition held (h : heap) (v : value) : Prop := forall d, v = VRef d -> is_Some (h !! d).
Definition held_element (nils : bool) (h : heap) (x : option loc) : Prop :=
  match x with Some d => dataset_at h d | None => nils = true end.
Inductive held_source (h : heap) : gval -> Prop :=
| hs_leaf v : held h v -> held_source h (GLeaf v)
| hs_map m : (forall k g, (k, g) ∈ m -> held_source h g) -> held_source h (GMap m)
| hs_maps ms : (forall m, m ∈ ms -> held_source h (GMap m)) -> held_source h (GMaps ms)
| hs_list gs : (forall g, g ∈ gs -> held_source h g) -> held_source h (GList gs).

(** One call that returns; [nils]: may nil be added to a collection? *)
Inductive call (nils : bool) (h : heap) : heap -> Prop :=
| call_new_dataset l : h !! l = None -> call nils h (<[l := ODs ∅]> h)                                (* &XDataset{} *)
| call_new_wrapper l d : h !! l = None -> dataset_at h d -> call nils h (<[l := OTs (Some d)]> h)     (* NewXDatasetTS(d) *)
| call_new_collection l : h !! l = None -> call nils h (<[l := OColl []]> h)                          (* &XDatasetCollection{} *)
| call_new_collection_ts l : h !! l = None -> call nils h (<[l := OCollTS []]> h)                     (* &XDatasetCollectionTS{} *)
| call_set n l k v h' : held h v -> dset n h l k v = Ok h' -> call nils h h'
| call_del n l k h' : ddel n h l k = Ok h' -> call nils h h'
| call_push c x h' : held_element nils h x -> cpush h c x = Ok h' -> call nils h h'
| call_unshift c x h' : held_element nils h x -> cunshift h c x = Ok h' -> call nils h h'
| call_pop c x h' : cpop h c = Ok (h', x) -> call nils h h'
| call_shift c x h' : cshift h c = Ok (h', x) -> call nils h h'
| call_clone ord n l h' l' : clone ord n h l = Ok (h', l') -> call nils h h'
| call_from_map m h' d : held_source h (GMap m) -> new_dataset h m = (h', d) -> call nils h h'
| call_from_maps ms h' c : held_source h (GMaps ms) -> new_collection h ms = (h', c) -> call nils h h'
| call_execute F ord langs th n t d h' out : compiled th -> execute F ord langs th n h t (Some d) = Ok (h', out) -> call nils h h'.
Definition built (nils : bool) (h : heap) : Prop := rtc (call nils) ∅ h.
(** No reference leads nowhere. *)
Definition no_dangling (h : heap) : Prop := forall x y, child h x y -> is_Some (h !! y).
