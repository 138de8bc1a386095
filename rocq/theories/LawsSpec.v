(** * Rewriting the text of a template: vocabulary (C111). *)
From Verif Require Import GoBase TemplateModel TemplateSpec WriteSpec.

(** The words of a tree that are in no box, and its outermost boxes. *)
Definition top_words (ns : list node) : list token := flat_map (fun n => match n with Word t => [t] | Part _ _ => [] end) ns.
Definition parts (ns : list node) : list (bytes * list node) := flat_map (fun n => match n with Word _ => [] | Part nm b => [(nm, b)] end) ns.
(** [body] is the content of the box that has the name [a]: the last one. *)
Definition named (ps : list (bytes * list node)) (a : bytes) (body : list node) : Prop :=
  exists u nm v, ps = u ++ (nm, body) :: v /\ part nm a /\ forall nm' b', (nm', b') ∈ v -> ~ part nm' a.
(** The tree that a text is: its words, bracketed. *)
Definition text_tree (data : bytes) (ns : list node) : Prop := Forall proper ns /\ reads data (words ns).

(** The words of a tree that are in no box and are not comments. *)
Definition said (ns : list node) : list token := List.filter (fun t => match t with TComment _ => false | _ => true end) (top_words ns).
(** Trees that say the same: the same words around the boxes, wherever the boxes stand between
    them, and boxes that say the same under each name.  Comments, boxes that a later one of the same
    name hides, and the order of boxes with other names do not count. *)
Inductive alike (ns ns' : list node) : Prop :=
| al : said ns = said ns' ->
    (forall a b, named (parts ns) a b -> exists b', named (parts ns') a b' /\ alike b b') ->
    (forall a b', named (parts ns') a b' -> exists b, named (parts ns) a b /\ alike b b') -> alike ns ns'.
(** The boxes of two trees say the same under each name, the words around them are different. *)
Definition mates (ns ns' : list node) : Prop :=
  (forall a b, named (parts ns) a b -> exists b', named (parts ns') a b' /\ alike b b') /\
  (forall a b', named (parts ns') a b' -> exists b, named (parts ns) a b /\ alike b b').
