(** * Property theorems about written templates (C105). *)
From Verif Require Import GoBase GoStrings DatasetModel DatasetSpec LangModel TemplateModel TemplateSpec WriteSpec WriteProofs.

(** ** C105 *)
(** Words that are written one after the other are read back, also in front of another text. *)
Theorem C105_round : forall l, Forall writable l -> apart l -> reads (page l) l.
Proof. exact page_reads. Qed.
Print Assumptions C105_round.
Theorem C105_before : forall r lr l, reads r lr -> Forall writable l -> apart (l ++ lr) -> reads (page l ++ r) (l ++ lr).
Proof. exact page_before. Qed.
Print Assumptions C105_before.
(** A tree of boxes that is written is compiled to this tree. *)
Theorem C105_tree : forall th ns, Forall proper ns -> Forall writable (words ns) -> apart (words ns) ->
  exists th' t is, new_template th (page (words ns)) = (th', Some t) /\ map node_of is = ns /\ loaded th' ∅ t is /\
    NoDup (t :: flat_map box_locs is).
Proof. exact page_tree. Qed.
Print Assumptions C105_tree.
(** Every text can be produced, with the metalanguage in it: empty comments keep the marks apart. *)
Theorem C105_any_text : forall F ord langs th s, exists th' t, new_template th (page (escaped s)) = (th', Some t) /\
  (forall h n, execute F ord langs th' (S n) h t None = Ok (h, s)) /\
  (forall h d, chain h d -> exists n0, forall n, (n0 <= n)%nat -> execute F ord langs th' n h t (Some d) = Ok (h, s)).
Proof. exact escaped_executes. Qed.
Print Assumptions C105_any_text.

Definition C105_nodes : list node :=
  [Word (TText (B "100#")); Word (TLang (B "x")); Part (B "a|b") [Word (TText (B "in")); Part (B "c") []; Word (TComment (B "[[]]"))];
   Word (TText (newline ++ B "{")); Word (TVar (B "v>w"))].
Example C105_case :
  page (words C105_nodes) = B "100###x##[[a|b]]" ++ newline ++ B "in[[c]]" ++ newline ++ B "[[]]" ++ newline ++ B "%--[[]]--%" ++ newline
    ++ B "[[]]" ++ newline ++ newline ++ B "{{{v>w}}" /\
  first_pass (page (words C105_nodes)) = map stored (words C105_nodes).
Proof. by vm_compute. Qed.
Example C105_text_case : forall F ord langs,
  let run s := let '(th, t) := new_template ∅ s in match t with Some t => execute F ord langs th 5 ∅ t None | None => Panic end in
  run (page (escaped (B "##x##" ++ newline ++ B "[[a]]%----%"))) = Ok (∅, B "##x##" ++ newline ++ B "[[a]]%----%").
Proof. by vm_compute. Qed.
