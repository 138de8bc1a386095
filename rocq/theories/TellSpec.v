(** * The text of a copy (C123). *)
From Verif Require Import GoBase GoStrings DatasetModel TextSpec SnapModel.

(** [says go t s]: the text of the copy [t]; [go]: GoString.  Collections print their elements with String. *)
Section Says.
  Context (F : golib).
  Inductive says : bool -> tree -> bytes -> Prop :=
  | sy_leaf (go : bool) v : says go (Leaf v) (if go then go_text F v else plain_text F v)
  | sy_node (go : bool) es ws s : says_entries go es ws ->
      braced (B (if go then "#xcore.XDataset{" else "xcore.XDataset{")) (map (fun kv => kv.1 ++ B ":" ++ kv.2) ws) s -> says go (Node es) s
  | sy_wrap go t s : says go t s -> says go (Wrap t) s
  | sy_coll go (b : bool) ts ws s : says_elements ts ws -> numbered 0 ws s ->
      says go (Coll b ts) (B (if b then "XDatasetCollectionTS[" else "XDatasetCollection[") ++ s ++ B "]")
  with says_entries : bool -> list (bytes * tree) -> list (bytes * bytes) -> Prop :=
  | sye_nil go : says_entries go [] []
  | sye_cons go k t s es ws : says go t s -> says_entries go es ws -> says_entries go ((k, t) :: es) ((k, s) :: ws)
  with says_elements : list tree -> list bytes -> Prop :=
  | syl_nil : says_elements [] []
  | syl_cons t s ts ws : says false t s -> says_elements ts ws -> says_elements (t :: ts) (s :: ws).
End Says.
Scheme says_mind := Minimality for says Sort Prop
  with says_entries_mind := Minimality for says_entries Sort Prop
  with says_elements_mind := Minimality for says_elements Sort Prop.
Combined Scheme says_mutind from says_mind, says_entries_mind, says_elements_mind.
