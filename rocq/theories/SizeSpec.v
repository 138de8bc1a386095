(** * C128: how long a page can get. *)
From Verif Require Import GoBase GoStrings DatasetModel LangModel DatasetSpec TemplateModel TemplateSpec RenderSpec.
Local Open Scope nat_scope.

(** [v] is a value or an element of the data. *)
Definition stored_in (h : heap) (v : value) : Prop :=
  (exists l m k, h !! l = Some (ODs m) /\ m !! k = Some v) \/ (exists c xs d, collection_at h c xs /\ Some d ∈ xs /\ v = VRef d).
(** No template has more than [M] elements, no text in a template is longer than [V]. *)
Definition small_templates (th : theap) (M V : nat) : Prop :=
  forall t T, th !! t = Some T -> match t_root T with
    | None => length (B "Error, no template.Root compiled") <= V
    | Some ps => length ps <= M /\ forall p, p ∈ ps -> p_type p = MString -> length (p_data p) <= V
    end.
(** No entry of a language is longer than [V]. *)
Definition small_languages (langs : nat -> option lang) (V : nat) : Prop :=
  forall k g s v, langs k = Some g -> l_entries g !! s = Some v -> length v <= V.
(** No collection has more than [R] elements, and no value or dataset has a text longer than [V], whatever the counters of the elements are. *)
Definition small_data (F : golib) ord (h : heap) (R V : nat) : Prop :=
  (forall c xs, collection_at h c xs -> length xs <= R) /\
  (forall h' v s, counted h h' -> stored_in h' v -> prints F ord h' v s -> length s <= V) /\
  (forall h' d s, counted h h' -> dumps F ord h' d s -> length s <= V).
