(** * Property theorems about plain and thread safe data with the same content (C129). *)
From Verif Require Import GoBase GoStrings DatasetModel LangModel DatasetSpec DatasetProofs2 DatasetProofs3 TemplateModel TemplateSpec RenderSpec RenderProofs10 HoleProofs3
  SameSpec KindSpec KindProofs4.

(** ** C129 *)
(** Wrapping datasets in XDatasetTS, any number of times, does not change the text. *)
Theorem C129_wrapped : forall R F ord ord' langs th n h h' t d d' h1 out, compiled th -> order_ok ord -> order_ok ord' ->
  alike R true h h' -> one_to_one R h h' -> R d d' -> execute F ord langs th n h t (Some d) = Ok (h1, out) ->
  exists n' h1', execute F ord' langs th n' h' t (Some d') = Ok (h1', out) /\ alike R true h1 h1' /\ one_to_one R h1 h1'.
Proof. exact execute_kinds. Qed.
Print Assumptions C129_wrapped.
(** Nor do thread safe collections in place of plain ones, if the template prints no object and tests no collection. *)
Theorem C129_collections : forall R F ord ord' langs th n h h' t d d' h1 out, compiled th -> order_ok ord -> order_ok ord' -> modest_template th h t ->
  alike R false h h' -> one_to_one R h h' -> R d d' -> execute F ord langs th n h t (Some d) = Ok (h1, out) ->
  exists n' h1', execute F ord' langs th n' h' t (Some d') = Ok (h1', out) /\ alike R false h1 h1' /\ one_to_one R h1 h1'.
Proof. exact execute_modest. Qed.
Print Assumptions C129_collections.
(** Both ways. *)
Theorem C129_symmetric : forall R b h h', alike R b h h' -> one_to_one R h h' -> alike (flip R) b h' h /\ one_to_one (flip R) h' h.
Proof. exact alike_symmetric. Qed.
Print Assumptions C129_symmetric.
(** Get gives the same values, String and GoString the same texts. *)
Theorem C129_get : forall R b n h h' d d' key r, alike R b h h' -> R d d' -> dget n h d key = Ok r ->
  exists n' r', dget n' h' d' key = Ok r' /\ option_Forall2 (same_value R) r r'.
Proof. exact gets_alike. Qed.
Print Assumptions C129_get.
Theorem C129_string : forall R F ord ord' n h h' go l l' s, order_ok ord -> order_ok ord' -> alike R true h h' -> R l l' -> show F ord n h go l = Ok s ->
  exists n', show F ord' n' h' go l' = Ok s.
Proof. exact shows_alike. Qed.
Print Assumptions C129_string.
(** Execute with a dataset or with any XDatasetTS around it. *)
Theorem C129_wrapper : forall F ord ord' langs th n h t w w' d m h1 out, compiled th -> order_ok ord -> order_ok ord' ->
  (forall x, reach h d x -> (exists y my, inside h x y my) \/ (exists xs, collection_at h x xs) \/ h !! x = None) -> inside h w d m -> inside h w' d m ->
  execute F ord langs th n h t (Some w) = Ok (h1, out) -> exists n' h1', execute F ord' langs th n' h t (Some w') = Ok (h1', out).
Proof. exact wrapper_executes. Qed.
Print Assumptions C129_wrapper.
(** A printed collection shows its kind. *)
Theorem C129_printed_collection_refuted : exists a b c, alike safe_pairs false (hole_data a b c) (safe_data a b c) /\ one_to_one safe_pairs (hole_data a b c) (safe_data a b c) /\
  forall F langs, let s := "{{rows}}"%string in
  text_of (run F ord0 langs s (hole_data a b c) (Some 1%positive)) = Ok (B "XDatasetCollection[0:xcore.XDataset{name:b} 1:xcore.XDataset{name:c} ]") /\
  text_of (run F ord0 langs s (safe_data a b c) (Some 1%positive)) = Ok (B "XDatasetCollectionTS[0:xcore.XDataset{name:b} 1:xcore.XDataset{name:c} ]").
Proof. exact kind_shown. Qed.
Print Assumptions C129_printed_collection_refuted.
(** "<b>{{name}}</b>@@rows:r@@??vip:v??…" on plain data, and on data in XDatasetTS with a thread safe collection. *)
Example C129_case : modest_template (page hole_page).1 (hole_data (B "A") (B "b") (B "c")) (page hole_page).2 /\
  (forall a b c, alike safe_pairs false (hole_data a b c) (safe_data a b c) /\ one_to_one safe_pairs (hole_data a b c) (safe_data a b c)) /\
  forall F langs, text_of (run F ord0 langs hole_page (hole_data (B "A") (B "b") (B "c")) (Some 1%positive)) = Ok (B "<b>A</b>1b,2c,VIPA") /\
    text_of (run F ord0 langs hole_page (safe_data (B "A") (B "b") (B "c")) (Some 1%positive)) = Ok (B "<b>A</b>1b,2c,VIPA").
Proof. exact safe_case. Qed.
