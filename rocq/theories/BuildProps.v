(** * Property theorems about heaps built with the API (C73). *)
From Verif Require Import GoBase GoStrings DatasetModel LangModel DatasetSpec DatasetProofs3 TemplateModel RenderSpec BuildSpec BuildProofs.
Local Open Scope Z_scope.

(** ** C73 *)
Theorem C73_well_formed : forall nils h, built nils h -> wf h /\ no_dangling h.
Proof. exact built_wf. Qed.
Print Assumptions C73_well_formed.
Theorem C73_get : forall nils h l key n, built nils h -> dataset_at h l ->
  dget n h l key <> Panic /\ exists n0 r, forall n', (n0 <= n')%nat -> dget n' h l key = Ok r.
Proof. exact built_get. Qed.
Print Assumptions C73_get.
Theorem C73_complete : forall h l, built false h -> is_Some (h !! l) -> complete h l.
Proof. exact built_complete. Qed.
Print Assumptions C73_complete.
Theorem C73_clone : forall h l ord, built false h -> is_Some (h !! l) -> order_ok ord ->
  (forall n, clone ord n h l <> Panic) /\ ((exists n r, clone ord n h l = Ok r) <-> acyclic h l) /\
  (forall n h' l', clone ord n h l = Ok (h', l') -> built false h').
Proof. exact built_clone. Qed.
Print Assumptions C73_clone.
(** With a nil element Clone never returns. *)
Theorem C73_clone_nil_refuted : forall ord n h c xs r, collection_at h c xs -> None ∈ xs -> clone ord n h c <> Ok r.
Proof. exact clone_nil. Qed.
Print Assumptions C73_clone_nil_refuted.
(** A dataset in a collection that it contains, and a wrapper around it. *)
Definition C73_heap : heap :=
  <[3%positive := OTs (Some 1%positive)]> (<[1%positive := ODs (<[B "c" := VRef 2]> ∅)]> (<[2%positive := OColl [Some 1%positive]]>
    (<[2%positive := OColl []]> (<[1%positive := ODs ∅]> ∅)))).
Example C73_case :
  built false C73_heap /\ dget 5 C73_heap 3 (B "c>0>c>0>c") = Ok (Some (VRef 2)) /\
  clone (fun _ m => map_to_list m) 99 C73_heap 3 = NoFuel /\
  clone (fun _ m => map_to_list m) 99 (<[4%positive := OColl [Some 5%positive; None]]> (<[5%positive := ODs ∅]> ∅)) 4 = Panic.
Proof.
  split_and!; [|by vm_compute..]. unfold built.
  eapply rtc_l; [by apply (call_new_dataset false ∅ 1)|].
  eapply rtc_l; [by apply (call_new_collection false _ 2)|].
  eapply rtc_l; [apply (call_push false _ 2 (Some 1%positive)); [left; by eexists|reflexivity]|].
  eapply rtc_l; [apply (call_set false _ 1 1 (B "c") (VRef 2)); [|reflexivity]; intros d [= <-]; by eexists|].
  eapply rtc_l; [apply (call_new_wrapper false _ 3 1); [reflexivity|left; by eexists]|]. apply rtc_refl.
Qed.
