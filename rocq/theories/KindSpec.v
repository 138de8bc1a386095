(** * Plain and thread safe data with the same content (C129). *)
From Verif Require Import GoBase DatasetModel DatasetSpec DatasetProofs2 TemplateModel TemplateSpec RenderSpec HoleSpec SameSpec.

Section Kinds.
  (** [R] pairs the objects of two heaps; [kinds]: a thread safe collection corresponds only to a thread safe one. Values
      correspond as in SameSpec: equal, or references to corresponding objects. *)
  Context (R : loc -> loc -> Prop) (kinds : bool).
  (** Datasets with corresponding entries, each in any number of XDatasetTS; collections of corresponding elements; nothing. *)
  Inductive same_content (h h' : heap) (l l' : loc) : Prop :=
  | sc_dataset x m x' m' : inside h l x m -> inside h' l' x' m' -> R x x' -> (forall k, option_Forall2 (same_value R) (m !! k) (m' !! k)) ->
      same_content h h' l l'
  | sc_collection xs xs' : collection_at h l xs -> collection_at h' l' xs' -> Forall2 (option_Forall2 R) xs xs' ->
      (kinds = true -> h !! l = Some (OColl xs) <-> h' !! l' = Some (OColl xs')) -> same_content h h' l l'
  | sc_nothing : h !! l = None -> h' !! l' = None -> same_content h h' l l'.
  Definition alike (h h' : heap) : Prop := forall l l', R l l' -> same_content h h' l l'.
  (** Different XDataset correspond to different ones. *)
  Definition one_to_one (h h' : heap) : Prop := forall a b a' b', R a b -> R a' b' ->
    (exists m, h !! a = Some (ODs m)) -> (exists m, h !! a' = Some (ODs m)) -> (exists m, h' !! b = Some (ODs m)) -> (exists m, h' !! b' = Some (ODs m)) ->
    a = a' <-> b = b'.
End Kinds.

(** The key stands for the value somewhere in the data. *)
Definition binds (h : heap) (k : bytes) (v : value) : Prop := exists l m, h !! l = Some (ODs m) /\ m !! k = Some v.
(** No end of the path is the number of an element, or stands for an object (a collection). *)
Definition to_values (h : heap) (path : bytes) : Prop := forall k, tail path k -> (forall i, ~ denotes k (Z.of_nat i)) /\ forall l, ~ binds h k (VRef l).
Definition to_tables (h : heap) (path : bytes) : Prop :=
  forall k, tail path k -> (forall i, ~ denotes k (Z.of_nat i)) /\ forall c xs, binds h k (VRef c) -> ~ collection_at h c xs.
(** Elements that print no object and test no collection. *)
Inductive modest (h : heap) : token -> Prop :=
| mo_text s : modest h (TText s)
| mo_comment s : modest h (TComment s)
| mo_lang s : modest h (TLang s)
| mo_var s : to_values h s -> modest h (TVar s)
| mo_dump s : s <> B "dump" -> s <> B "list" -> modest h (TDump s)
| mo_ref s : (forall a field prefix, separated ":"%char s a [field; prefix] -> to_values h field) -> modest h (TRef s)
| mo_range s : modest h (TRange s)
| mo_cond s : (forall d b, data_template s d b -> to_tables h d) -> modest h (TCond s).
(** [t] and every template it can reach have only such elements. *)
Definition modest_template (th : theap) (h : heap) (t : loc) : Prop :=
  forall x T l, reaches th t x -> th !! x = Some T -> t_root T = Some (map stored l) -> Forall (modest h) l.
