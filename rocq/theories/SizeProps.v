(** * C128: how long a page can get. *)
From Verif Require Import GoBase LangModel DatasetModel DatasetSpec TemplateModel TemplateSpec RenderSpec RenderProofs10 SizeSpec SizeProofs SizeProofs2 SizeProofs3.
Local Open Scope nat_scope.

(** At most M elements in a template, R elements in a list, V bytes in a text: the page of a template of rank r has at most V * (M * R) ^ (r + 1) bytes. *)
Theorem C128_bound : forall F ord langs th rank h t d n h' out M R V, compiled th -> ranked th rank -> 1 <= M -> 1 <= R ->
  small_templates th M V -> small_languages langs V -> small_data F ord h R V ->
  execute F ord langs th n h t (Some d) = Ok (h', out) -> length out <= V * (M * R) ^ S (rank t).
Proof. exact execute_bound. Qed.
Print Assumptions C128_bound.
(** Without data V * M ^ (r + 1) bytes. *)
Theorem C128_bound_without_data : forall F ord langs th rank h t n h' out M V, compiled th -> closed th -> ranked th rank -> 1 <= M ->
  small_templates th M V -> execute F ord langs th n h t None = Ok (h', out) -> length out <= V * M ^ S (rank t).
Proof. exact execute_nil_bound. Qed.
Print Assumptions C128_bound_without_data.
(** There are texts of at most (m + 2) * (n + 10) ^ 2 bytes whose page is m ^ n times x, with any data and without. *)
Theorem C128_grows : forall F ord langs th m n, exists text th' t, length text <= (m + 2) * (n + 10) ^ 2 /\ new_template th text = (th', Some t) /\
  (forall h f, n + 4 <= f -> execute F ord langs th' f h t None = Ok (h, replicate (m ^ n) "x"%char)) /\
  (forall h d, chain h d -> exists n0, forall f, n0 <= f -> execute F ord langs th' f h t (Some d) = Ok (h, replicate (m ^ n) "x"%char)).
Proof. exact tower_executes. Qed.
Print Assumptions C128_grows.
(** So no polynomial in the length of the text bounds the page. *)
Theorem C128_polynomial_refuted : forall F ord langs, ~ exists c k, forall text th t n out, new_template ∅ text = (th, Some t) ->
  execute F ord langs th n ∅ t None = Ok (∅, out) -> length out <= c * length text ^ k.
Proof.
  exact (fun F ord langs '(ex_intro _ c (ex_intro _ k H)) => match no_polynomial F ord langs c k with
    | ex_intro _ text (ex_intro _ th (ex_intro _ t (ex_intro _ n (ex_intro _ out (conj Hn (conj He Hl)))))) => Nat.lt_irrefl _ (Nat.lt_le_trans _ _ _ Hl (H text th t n out Hn He))
    end).
Qed.
Print Assumptions C128_polynomial_refuted.
(** A list with the same dataset twice; every row is the template a. *)
Example C128_case : forall F, compiled (page two_rows).1 /\ ranked (page two_rows).1 rank_rows /\
  (exists V, small_templates (page two_rows).1 1 V /\ small_data F ord0 album 2 V) /\
  text_of (run F ord0 (fun _ => None) two_rows album (Some 1%positive)) = Ok (B "abcabc").
Proof. exact rows_case. Qed.
