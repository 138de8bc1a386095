(** * Executions that panic, as a relation.
    Uses the meaning of the elements of a template of RenderSpec.v. *)
From Verif Require Import GoBase GoStrings DatasetModel LangModel DatasetSpec DatasetProofs2 TemplateModel TemplateSpec RenderSpec.
Local Open Scope Z_scope.

(** The collections that can be reached from [d] have no nil element. *)
Definition no_holes (h : heap) (d : loc) : Prop := forall c xs, reach h d c -> collection_at h c xs -> None ∉ xs.

Section Crashes.
  Context (F : golib) (ord : heap -> gmap bytes value -> list (bytes * value)) (th : theap) (lg : option lang).
  (** [calls h sc t k sc' x]: the element [k] of [t], met in the scope [sc], puts the template [x], in the scope [sc'], in its place. *)
  Inductive calls (h : heap) (sc : list loc) (t : loc) : token -> list loc -> loc -> Prop :=
  | cl_select s a field prefix v x : separated ":"%char s a [field; prefix] -> field_text F ord h sc field v ->
      choose th t [prefix ++ v; prefix] (Some x) -> calls h sc t (TRef s) sc x
  | cl_narrow s a field x d : separated ":"%char s a [field] -> visible th t a (Some x) ->
      found h sc field (Some (VRef d)) -> dataset_at h d -> calls h sc t (TRef s) (d :: sc) x
  | cl_keep s a field x r : separated ":"%char s a [field] -> visible th t a (Some x) ->
      found h sc field r -> (forall d, r = Some (VRef d) -> ~ dataset_at h d) -> calls h sc t (TRef s) sc x
  | cl_ref s a ws x : separated ":"%char s a ws -> length ws <> 1%nat -> length ws <> 2%nat ->
      visible th t a (Some x) -> calls h sc t (TRef s) sc x
  | cl_range_none s d b x r q : data_template s d b -> visible th t b (Some x) -> found h sc d r ->
      (forall c xs, r = Some (VRef c) -> collection_at h c xs -> xs = []) -> visible th t (dotted b (B "none")) q ->
      calls h sc t (TRange s) sc (or_else q x)
  | cl_cond_dataset s d b x v q : data_template s d b -> visible th t b (Some x) -> found h sc d (Some (VRef v)) ->
      dataset_at h v -> visible th t (dotted b (B "array")) q -> calls h sc t (TCond s) (v :: sc) (or_else q x)
  | cl_cond_value s d b x v w q : data_template s d b -> visible th t b (Some x) -> found h sc d (Some v) ->
      v <> VNil -> (forall l, v = VRef l -> ~ dataset_at h l) -> prints F ord h v w -> w <> [] -> visible th t (dotted b w) q ->
      calls h sc t (TCond s) sc (or_else q x)
  | cl_cond_blank s d b r p q x : data_template s d b -> visible th t b p -> found h sc d r -> blank F ord h r ->
      visible th t (dotted b (B "none")) q -> (match q with Some y => Some y | None => p end) = Some x -> calls h sc t (TCond s) sc x.
  (** [loop_at h sc t k b x c xs]: the element [k] of [t] loops over the collection [c], which has the elements [xs], with the template
      [x] of name [b]. *)
  Definition loop_at (h : heap) (sc : list loc) (t : loc) (k : token) (b : bytes) (x : loc) (xs : list (option loc)) : Prop :=
    exists s d c, k = TRange s /\ data_template s d b /\ visible th t b (Some x) /\ found h sc d (Some (VRef c)) /\ collection_at h c xs.
  (** [crashes h sc t]: the template [t] panics in the scope [sc].  What stands before has been rendered; then a called template
      panics, or the template of an element of a loop, or the element of the loop is nil. *)
  Inductive crashes : heap -> list loc -> loc -> Prop :=
  | cr_call h sc t T l1 k l2 h1 o sc' x : th !! t = Some T -> t_root T = Some (map stored (l1 ++ k :: l2)) ->
      renders_all F ord th lg h sc t l1 h1 o -> calls h1 sc t k sc' x -> crashes h1 sc' x -> crashes h sc t
  | cr_inside h sc t T l1 k l2 h1 o b x xs i e q h2 o2 h3 : th !! t = Some T -> t_root T = Some (map stored (l1 ++ k :: l2)) ->
      renders_all F ord th lg h sc t l1 h1 o -> loop_at h1 sc t k b x xs ->
      loops F ord th lg h1 sc t b x 0 (length xs) (take i xs) h2 o2 -> xs !! i = Some (Some e) ->
      choose th t (element_names b i (length xs)) q -> counts h2 e i h3 -> crashes h3 (e :: sc) (or_else q x) -> crashes h sc t
  | cr_hole h sc t T l1 k l2 h1 o b x xs i q h2 o2 : th !! t = Some T -> t_root T = Some (map stored (l1 ++ k :: l2)) ->
      renders_all F ord th lg h sc t l1 h1 o -> loop_at h1 sc t k b x xs ->
      loops F ord th lg h1 sc t b x 0 (length xs) (take i xs) h2 o2 -> xs !! i = Some None ->
      choose th t (element_names b i (length xs)) q -> crashes h sc t.
End Crashes.
(** Execute panics. *)
Definition execute_crashes F ord langs th h t d : Prop :=
  exists lg, language_of langs h d lg /\ crashes F ord th lg h [d] t.
