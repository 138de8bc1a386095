(** * Property theorems about the fields of the data that a template only prints (C102). *)
From Verif Require Import GoBase GoStrings DatasetModel LangModel DatasetSpec DatasetProofs3 TemplateModel TemplateSpec
  RenderSpec RenderProofs10 HoleSpec HoleProofs2 HoleProofs3.

(** ** C102 *)
(** The text is a pattern with one hole for each time a free field is printed: for all other
    contents of the free fields the same pattern is filled with their texts. *)
Theorem C102_pattern : forall kind F ord langs th n h t d h1 out, compiled th -> order_ok ord -> proper kind -> careful_template kind th t -> variant kind h h ->
  execute F ord langs th n h t (Some d) = Ok (h1, out) ->
  exists ps, Forall (fun p => match p with Lit _ => True | Hole _ k => kind k = Free /\ printed th t k end) ps /\ out = fill F h ps /\
    forall h', variant kind h h' -> exists n' h1', execute F ord langs th n' h' t (Some d) = Ok (h1', fill F h' ps) /\ variant kind h1 h1'.
Proof. exact execute_pattern. Qed.
Print Assumptions C102_pattern.
(** Fields that are neither printed nor tested have no effect on the text. *)
Theorem C102_unprinted : forall kind F ord langs th n h t d h1 out, compiled th -> order_ok ord -> proper kind -> careful_template kind th t ->
  (forall k, printed th t k -> kind k <> Free) -> variant kind h h -> execute F ord langs th n h t (Some d) = Ok (h1, out) ->
  forall h', variant kind h h' -> exists n' h1', execute F ord langs th n' h' t (Some d) = Ok (h1', out).
Proof. exact unprinted. Qed.
Print Assumptions C102_unprinted.
(** The template and the data meet the conditions with [name] free, whatever the names are ... *)
Example C102_conditions : proper hole_kind /\ compiled (page hole_page).1 /\ careful_template hole_kind (page hole_page).1 (page hole_page).2 /\
  forall a b c a' b' c', variant hole_kind (hole_data a b c) (hole_data a' b' c').
Proof. exact hole_conditions. Qed.
(** ... and this is the pattern: braces and brackets in the names are text. *)
Example C102_case : forall F langs,
  (forall a b c, text_of (run F ord0 langs hole_page (hole_data a b c) (Some 1%positive)) =
    Ok (B "<b>" ++ a ++ B "</b>1" ++ b ++ B ",2" ++ c ++ B ",VIP" ++ a)) /\
  text_of (run F ord0 langs hole_page (hole_data (B "{{vip}}") (B "[[v]]") (B "")) (Some 1%positive)) = Ok (B "<b>{{vip}}</b>1[[v]],2,VIP{{vip}}").
Proof. exact hole_case. Qed.
(** A field that chooses a template is not free. *)
Example C102_chooses : forall F langs, let s := "??name:v??[[v]]plain[[]][[v.x]]X[[]]"%string in
  text_of (run F ord0 langs s (hole_data (B "y") [] []) (Some 1%positive)) = Ok (B "plain") /\
  text_of (run F ord0 langs s (hole_data (B "x") [] []) (Some 1%positive)) = Ok (B "X").
Proof. exact hole_chooses. Qed.
