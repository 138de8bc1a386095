(** * Property theorems about data at other addresses (C92). *)
From Verif Require Import GoBase GoStrings DatasetModel LangModel DatasetSpec DatasetProofs3 TemplateModel TemplateSpec
  RenderSpec RenderProofs10 SameSpec SameProofs3.

(** ** C92 *)
(** The text depends on the content of the data, not on where it is nor on the order of its maps. *)
Theorem C92_addresses : forall R F ord ord' langs th n h h' t d d' h1 out, compiled th -> order_ok ord -> order_ok ord' ->
  one_to_one R \/ loop_free th t -> alike R h h' -> R d d' -> execute F ord langs th n h t (Some d) = Ok (h1, out) ->
  exists n' h1', execute F ord' langs th n' h' t (Some d') = Ok (h1', out) /\ alike R h1 h1'.
Proof. exact execute_alike. Qed.
Print Assumptions C92_addresses.
(** A clone gives the text of its original, before and after the cloning. *)
Theorem C92_clone : forall F ord ord' ordc langs th n h l h' l' t, compiled th -> order_ok ord -> order_ok ord' -> order_ok ordc ->
  complete h l -> clone ordc n h l = Ok (h', l') -> loop_free th t \/ unshared h l ->
  forall out, ((exists k h1, execute F ord langs th k h t (Some l) = Ok (h1, out)) <-> (exists k h1, execute F ord' langs th k h' t (Some l') = Ok (h1, out))) /\
  ((exists k h1, execute F ord langs th k h' t (Some l) = Ok (h1, out)) <-> (exists k h1, execute F ord' langs th k h' t (Some l') = Ok (h1, out))).
Proof. exact clone_execute. Qed.
Print Assumptions C92_clone.
Theorem C92_clone_unshared : forall ord n h l h' l', order_ok ord -> clone ord n h l = Ok (h', l') -> unshared h' l'.
Proof. exact clone_is_unshared. Qed.
Print Assumptions C92_clone_unshared.
(** With a loop and an object reached in two ways, the clone can give another text. *)
Theorem C92_clone_shared_refuted : exists th t h l n h' l', built th /\ complete h l /\ clone ord0 n h l = Ok (h', l') /\
  forall F langs, exists h1 h2, execute F ord0 langs th 30 h t (Some l) = Ok (h1, B "x1") /\ execute F ord0 langs th 30 h' t (Some l') = Ok (h2, B "x").
Proof. exact shared_differs. Qed.
Print Assumptions C92_clone_shared_refuted.
(** The clone of [shop] holds its loop counters at other addresses and gives the same text. *)
Example C92_case : forall F langs, let s := "{{n}}@@c:a@@&&b:d&&[[a]]({{.counter}}{{n}}{{m}})[[]][[b]]{{n}}{{k}}[[]]{{c>1>.counter}}"%string in
  let '(h', l') := cloned_data shop 1 in l' = 7%positive /\
  text_of (run F ord0 langs s shop (Some 1%positive)) = Ok (B "N(1first)(2N7)Dblue2") /\
  text_of (run F ord0 langs s h' (Some l')) = Ok (B "N(1first)(2N7)Dblue2").
Proof. intros F langs. vm_compute. repeat split. Qed.
