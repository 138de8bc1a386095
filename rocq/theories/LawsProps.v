(** * Property theorems about rewriting templates (C111). *)
From Verif Require Import GoBase GoStrings DatasetModel DatasetSpec LangModel TemplateModel TemplateSpec WriteSpec RenderProofs10 LawsSpec LawsProofs.

(** ** C111 *)
(** A text has one tree. *)
Theorem C111_tree : forall th0 data th t, new_template th0 data = (th, Some t) -> exists ns, text_tree data ns /\ forall ns', text_tree data ns' -> ns' = ns.
Proof. exact one_tree. Qed.
Print Assumptions C111_tree.
(** Texts whose trees say the same are executed in the same way: the same answer, panics included,
    the same writes, in the same number of steps. *)
Theorem C111_alike : forall F ord langs th0 th0' data data' ns ns' th t th' t', text_tree data ns -> text_tree data' ns' -> alike ns ns' ->
  new_template th0 data = (th, Some t) -> new_template th0' data' = (th', Some t') ->
  forall n h d, execute F ord langs th n h t d = execute F ord langs th' n h t' d.
Proof. exact execute_alike. Qed.
Print Assumptions C111_alike.
(** Loading a text twice, among any other templates. *)
Theorem C111_same_text : forall F ord langs th0 th0' data th t th' t', new_template th0 data = (th, Some t) -> new_template th0' data = (th', Some t') ->
  forall n h d, execute F ord langs th n h t d = execute F ord langs th' n h t' d.
Proof. exact execute_text. Qed.
Print Assumptions C111_same_text.
(** It is an equivalence; boxes may stand anywhere between the words. *)
Theorem C111_equivalence : (forall ns, alike ns ns) /\ (forall a b, alike a b -> alike b a) /\ (forall a b c, alike a b -> alike b c -> alike a c) /\
  (forall ns ns', said ns = said ns' -> parts ns = parts ns' -> alike ns ns').
Proof. exact alike_equivalence. Qed.
Print Assumptions C111_equivalence.
(** A text whose words are those of two texts with its boxes: the one is executed, then the other. *)
Theorem C111_concat : forall F ord langs th0 th1 th2 data data1 data2 ns ns1 ns2 th t tha ta thb tb,
  text_tree data ns -> text_tree data1 ns1 -> text_tree data2 ns2 -> mates ns1 ns -> mates ns2 ns -> said ns = said ns1 ++ said ns2 ->
  new_template th0 data = (th, Some t) -> new_template th1 data1 = (tha, Some ta) -> new_template th2 data2 = (thb, Some tb) ->
  forall n h d, execute F ord langs th n h t d =
    ('(h1, a) <-! execute F ord langs tha n h ta d; '(h2, b) <-! execute F ord langs thb n h1 tb d; Ok (h2, a ++ b)).
Proof. exact execute_concat. Qed.
Print Assumptions C111_concat.
(** A reference to a box without inner boxes may be replaced by what is in the box. *)
Theorem C111_inline : forall F ord langs th0 th0' data data' ns ns' a body l1 l2 th t th' t', text_tree data ns -> text_tree data' ns' -> mates ns ns' ->
  named (parts ns) a body -> parts body = [] -> ":"%char ∉ a -> said ns = l1 ++ TRef a :: l2 -> said ns' = l1 ++ said body ++ l2 ->
  new_template th0 data = (th, Some t) -> new_template th0' data' = (th', Some t') ->
  forall h d r, r <> NoFuel -> (exists n, execute F ord langs th n h t d = r) <-> (exists n, execute F ord langs th' n h t' d = r).
Proof. exact execute_inline. Qed.
Print Assumptions C111_inline.
(** A reference to a name that no box has may be left out. *)
Theorem C111_unknown : forall F ord langs th0 th0' data data' ns ns' a l1 l2 th t th' t', text_tree data ns -> text_tree data' ns' -> mates ns ns' ->
  (forall body, ~ named (parts ns) a body) -> ":"%char ∉ a -> said ns = l1 ++ TRef a :: l2 -> said ns' = l1 ++ l2 ->
  new_template th0 data = (th, Some t) -> new_template th0' data' = (th', Some t') ->
  forall n h d, execute F ord langs th (S (S n)) h t d = execute F ord langs th' (S (S n)) h t' d.
Proof. exact execute_unknown. Qed.
Print Assumptions C111_unknown.
(** With inner boxes it may not: their names are seen from the box only. *)
Theorem C111_inner_boxes_refuted : exists data data' ns ns' a body l1 l2, text_tree data ns /\ text_tree data' ns' /\ parts ns = parts ns' /\
  named (parts ns) a body /\ ":"%char ∉ a /\ said ns = l1 ++ TRef a :: l2 /\ said ns' = l1 ++ said body ++ l2 /\
  exists th t th' t', new_template ∅ data = (th, Some t) /\ new_template ∅ data' = (th', Some t') /\
  forall F ord langs h, execute F ord langs th 9 h t None = Ok (h, B "xy") /\ execute F ord langs th' 9 h t' None = Ok (h, B "x").
Proof. exact inner_boxes. Qed.
Print Assumptions C111_inner_boxes_refuted.

Example C111_case :
  text_tree (B "%--note--%[[a]]old[[]]x&&a&&[[a]]A{{n}}[[]]y") laws1 /\ text_tree (B "x[[a]]%--c--%A{{n}}[[]]&&a&&y") laws2 /\ alike laws1 laws2 /\
  forall F langs,
    text_of (run F ord0 langs "%--note--%[[a]]old[[]]x&&a&&[[a]]A{{n}}[[]]y" shop (Some 1%positive)) = Ok (B "xANy") /\
    text_of (run F ord0 langs "x[[a]]%--c--%A{{n}}[[]]&&a&&y" shop (Some 1%positive)) = Ok (B "xANy").
Proof. split; [exact laws1_tree|]. split; [exact laws2_tree|]. split; [exact laws_alike|]. intros F langs. by vm_compute. Qed.
(** [laws3] is [laws2] with the box in place of the reference, and so a text of two halves. *)
Example C111_inline_case :
  text_tree (B "x[[a]]A{{n}}[[]]A{{n}}y") laws3 /\ mates laws2 laws3 /\ named (parts laws2) (B "a") [Word (TComment (B "c")); Word (TText (B "A")); Word (TVar (B "n"))] /\
  forall F langs, text_of (run F ord0 langs "x[[a]]A{{n}}[[]]A{{n}}y" shop (Some 1%positive)) = Ok (B "xANy").
Proof. split; [exact laws3_tree|]. split; [exact laws_mates|]. split; [exact laws_named|]. intros F langs. by vm_compute. Qed.
