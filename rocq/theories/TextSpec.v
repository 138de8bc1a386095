(** * What String and GoString print, described without the printing functions (C78, C79). *)
From Verif Require Import GoBase GoStrings LangModel DatasetModel DatasetSpec.
Local Open Scope Z_scope.

(** The order of strings: a prefix comes first; otherwise the first different byte decides. *)
Definition string_order (a b : bytes) : Prop :=
  (exists r, b = a ++ r) \/
  (exists p x y a' b', a = p ++ x :: a' /\ b = p ++ y :: b' /\ (N_of_ascii x < N_of_ascii y)%N).

(** One word per entry, in the order of strings. *)
Definition sorted_words (words sorted : list bytes) : Prop := sorted ≡ₚ words /\ StronglySorted string_order sorted.
(** The words one after the other, a space between two of them. *)
Inductive spaced_out : list bytes -> bytes -> Prop :=
| so_nil : spaced_out [] []
| so_one w : spaced_out [w] w
| so_more w ws t : ws <> [] -> spaced_out ws t -> spaced_out (w :: ws) (w ++ B " " ++ t).
Definition braced (start : bytes) (words : list bytes) (t : bytes) : Prop :=
  exists sorted body, sorted_words words sorted /\ spaced_out sorted body /\ t = start ++ body ++ B "}".

(** Tables whose print can be read back: no space in keys and values, no colon in keys. *)
Definition readable (m : table) : Prop :=
  forall k v, m !! k = Some v -> " "%char ∉ k /\ " "%char ∉ v /\ ":"%char ∉ k.

(** Every object reachable from [l] exists; elements of collections and datasets of wrappers may be nil. *)
Definition whole (h : heap) (l : loc) : Prop := forall x, reach h l x -> exists o, h !! x = Some o.
(** [l] is a wrapper of nil, or a wrapper of such a wrapper. *)
Inductive hollow (h : heap) : loc -> Prop :=
| ho_nil l : h !! l = Some (OTs None) -> hollow h l
| ho_wrapper l d : h !! l = Some (OTs (Some d)) -> hollow h d -> hollow h l.
(** What fmt prints for a value whose String or GoString panics on a nil pointer. *)
Definition recovered (go : bool) : bytes :=
  B "%!v(PANIC=" ++ B (if go then "GoString" else "String") ++ B " method: runtime error: invalid memory address or nil pointer dereference)".

Section Dataset.
  Context (F : golib).
  (** The elements of a collection, numbered, a space after each. *)
  Inductive numbered : Z -> list bytes -> bytes -> Prop :=
  | nu_nil i : numbered i [] []
  | nu_cons i w ws t : numbered (i + 1) ws t -> numbered i (w :: ws) (itoa i ++ B ":" ++ w ++ B " " ++ t).

  (** [prints h go l t]: the object [l] prints as [t]; [go]: GoString. *)
  Inductive prints (h : heap) : bool -> loc -> bytes -> Prop :=
  | pr_ds (go : bool) l m (text : bytes -> bytes) t :
      h !! l = Some (ODs m) ->
      (forall k v, m !! k = Some v -> prints_value h go v (text k)) ->
      braced (B (if go then "#xcore.XDataset{" else "xcore.XDataset{"))
        (map (fun kv => kv.1 ++ B ":" ++ text kv.1) (map_to_list m)) t ->
      prints h go l t
  | pr_ts go l d t : h !! l = Some (OTs (Some d)) -> prints h go d t -> prints h go l t
  | pr_coll go l xs texts t :
      h !! l = Some (OColl xs) -> elements h xs texts -> numbered 0 texts t ->
      prints h go l (B "XDatasetCollection[" ++ t ++ B "]")
  | pr_collts go l xs texts t :
      h !! l = Some (OCollTS xs) -> elements h xs texts -> numbered 0 texts t ->
      prints h go l (B "XDatasetCollectionTS[" ++ t ++ B "]")
  with prints_value (h : heap) : bool -> value -> bytes -> Prop :=
  | pv_plain (go : bool) v : (forall d, v <> VRef d) -> prints_value h go v (if go then go_text F v else plain_text F v)
  | pv_ref go d t : prints h go d t -> prints_value h go (VRef d) t
  | pv_hollow go d : hollow h d -> prints_value h go (VRef d) (recovered go)
  with elements (h : heap) : list (option loc) -> list bytes -> Prop :=
  | el_nil : elements h [] []
  | el_some d t xs ts : prints h false d t -> elements h xs ts -> elements h (Some d :: xs) (t :: ts)
  | el_hollow d xs ts : hollow h d -> elements h xs ts -> elements h (Some d :: xs) (recovered false :: ts)
  | el_none xs ts : elements h xs ts -> elements h (None :: xs) (B "<nil>" :: ts).
End Dataset.
