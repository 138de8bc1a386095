(** * C125: when a Get through nested thread safe data shows one moment. *)
From Verif Require Import GoBase GoStrings LangModel DatasetModel DatasetSpec SnapModel WaitModel WaitSpec.
Local Open Scope nat_scope.

(** [W] tells what is inside each thread safe dataset, now or later: an XDataset, inside one wrapper only. *)
Definition fits (W : loc -> option loc) (h : heap) : Prop :=
  (forall l d, h !! l = Some (OTs (Some d)) -> W l = Some d /\ exists m, h !! d = Some (ODs m)) /\
  (forall l d, W l = Some d -> (h !! l = None \/ h !! l = Some (OTs (Some d))) /\ (h !! d = None \/ exists m, h !! d = Some (ODs m))) /\
  (forall l l' d, W l = Some d -> W l' = Some d -> l = l').
(** An XDataset is not inside a wrapper: it may be used directly. *)
Definition outside (W : loc -> option loc) (l : loc) : Prop := forall x, W x <> Some l.
(** The insides of the wrappers and the wrappers are left as they are. *)
Definition spares (W : loc -> option loc) (h h' : heap) : Prop :=
  (forall l o, h !! l = Some (OTs o) -> h' !! l = Some (OTs o)) /\ forall l d, W l = Some d -> h' !! d = h !! d.
(** The methods, called on objects that are not inside a wrapper when they write. *)
Inductive polite (F : golib) (ord : heap -> gmap bytes value -> list (bytes * value)) (W : loc -> option loc) : forall C, prog C -> Prop :=
| polite_get n l key : polite F ord W _ (w_get n l key)
| polite_string n l key : polite F ord W _ (w_string F ord n l key)
| polite_typed C n l key (conv : heap -> value -> option C) zero : polite F ord W _ (w_typed n l key conv zero)
| polite_set n l key v : outside W l -> polite F ord W _ (w_set n l key v)
| polite_del n l key : outside W l -> polite F ord W _ (w_del n l key)
| polite_clone n l : polite F ord W _ (w_clone ord n l)
| polite_show n go l : polite F ord W _ (w_show F ord n go l)
| polite_data n c key : polite F ord W _ (w_data n c key)
| polite_count c : polite F ord W _ (w_count c)
| polite_elem c i : polite F ord W _ (w_elem c i)
| polite_unshift c d : polite F ord W _ (w_unshift c d)
| polite_push c d : polite F ord W _ (w_push c d)
| polite_shift c : polite F ord W _ (w_shift c)
| polite_pop c : polite F ord W _ (w_pop c).
(** A goroutine that calls them one after the other, and makes new objects or changes unwrapped ones in between. *)
Inductive user {A} (F : golib) (ord : heap -> gmap bytes value -> list (bytes * value)) (W : loc -> option loc) : prog A -> Prop :=
| user_done a : user F ord W (Done a)
| user_crash : user F ord W Crash
| user_short : user F ord W Short
| user_look w k : (forall h, fits W h -> spares W h (w h)) -> (forall h, user F ord W (k h)) -> user F ord W (Look w k)
| user_last m : polite F ord W A m -> user F ord W m
| user_method C (m : prog C) f : polite F ord W C m -> (forall a, user F ord W (f a)) -> user F ord W (pbind m f).
(** What stands under these names is a thread safe dataset or no object at all. *)
Definition wrappers_under (names : list bytes) (h : heap) : Prop :=
  forall l m k y, h !! l = Some (ODs m) -> k ∈ names -> m !! k = Some (VRef y) -> exists d, h !! y = Some (OTs (Some d)).
