(** * Property theorems about executions that panic (C107). *)
From Verif Require Import GoBase GoStrings DatasetModel LangModel DatasetSpec DatasetProofs3 TemplateModel TemplateSpec
  RenderSpec RenderProofs6 RenderProofs10 BuildSpec CrashSpec CrashProofs2.
Local Open Scope Z_scope.

(** ** C107 *)
(** With data, Execute panics exactly when a loop that is reached meets a nil element of its collection. *)
Theorem C107_panics : forall F ord langs th h t d, compiled th -> closed th -> is_Some (th !! t) -> wf h -> dataset_at h d ->
  (exists n, execute F ord langs th n h t (Some d) = Panic) <-> execute_crashes F ord langs th h t d.
Proof. exact execute_panics. Qed.
Print Assumptions C107_panics.
(** It panics whatever is allowed to it, and gives no text. *)
Theorem C107_always : forall F ord langs th h t d, execute_crashes F ord langs th h t d ->
  (exists n0, forall n, (n0 <= n)%nat -> execute F ord langs th n h t (Some d) = Panic) /\
  forall h' out, ~ executes F ord langs th h t d h' out.
Proof. exact crash_always. Qed.
Print Assumptions C107_always.
(** Without nil elements in the collections that the data lead to there is no panic: for every template, recursive or not, and all data, cyclic or not. *)
Theorem C107_no_holes : forall F ord langs th n h t d, compiled th -> closed th -> is_Some (th !! t) -> wf h -> dataset_at h d -> no_holes h d ->
  execute F ord langs th n h t (Some d) <> Panic.
Proof. exact no_hole_no_panic. Qed.
Print Assumptions C107_no_holes.
(** So there is none for the templates and the data that the functions of the package make, as long as no nil is pushed. *)
Theorem C107_made : forall F ord langs th n h t d, RenderSpec.built th -> BuildSpec.built false h -> is_Some (th !! t) -> dataset_at h d ->
  execute F ord langs th n h t (Some d) <> Panic.
Proof. exact made_no_panic. Qed.
Print Assumptions C107_made.
(** A loop over a collection with a nil element, once reached, leaves no text. *)
Theorem C107_no_text : forall F ord langs th h t d T l1 k l2 lg h1 o b x xs, compiled th -> th !! t = Some T ->
  t_root T = Some (map stored (l1 ++ k :: l2)) -> language_of langs h d lg -> renders_all F ord th lg h [d] t l1 h1 o ->
  loop_at th h1 [d] t k b x xs -> None ∈ xs -> forall n r, execute F ord langs th n h t (Some d) <> Ok r.
Proof. exact hole_no_text. Qed.
Print Assumptions C107_no_text.
(** 1: the data; 2: its collection c, whose element 1 is nil; 5: its collection g, of one dataset that has the collection c. *)
Definition gaps : heap := list_to_map
  [(1%positive, ds [("c"%string, VRef 2); ("g"%string, VRef 5); ("n"%string, VStr (B "N"))]);
   (2%positive, OColl [Some 3%positive; None; Some 4%positive]); (3%positive, ds [("n"%string, VStr (B "three"))]);
   (4%positive, ds [("n"%string, VStr (B "four"))]); (5%positive, OCollTS [Some 6%positive]); (6%positive, ds [("c"%string, VRef 2)])].
(** The nil element is not skipped. *)
Theorem C107_skipped_refuted : forall F ord langs, text_of (run F ord langs "a@@c:l@@z[[l]]({{n}})[[]]" gaps (Some 1%positive)) = Panic.
Proof. intros F ord langs. vm_compute. reflexivity. Qed.
Print Assumptions C107_skipped_refuted.

(** Paths, conditions and references go past it; a loop that calls a loop panics; a collection with a nil element does no harm to the
    loops over others. *)
Example C107_case : forall F langs, let run s := text_of (run F ord0 langs s gaps (Some 1%positive)) in
  map run ["{{c>0>n}}{{c>1>n}}{{c>2>n}}"; "??c>1:l??&&l:c>1&&[[l]]({{n}})[[]]"; "@@g:l@@[[l]]<&&i&&>[[]][[i]]@@c:j@@[[]][[j]]x[[]]"; "@@g:l@@[[l]]<{{n}}>[[]]"; "@@c:zz@@"]%string
  = [Ok (B "threefour"); Ok (B "(N)(N)"); Panic; Ok (B "<N>"); Ok (B "")].
Proof. intros F langs. vm_compute. reflexivity. Qed.
Example C107_crashes : forall F ord langs, let p := page "a@@c:l@@z[[l]]({{n}})[[]]" in execute_crashes F ord langs p.1 gaps p.2 1.
Proof.
  intros F ord langs p. assert (Hb : RenderSpec.built p.1) by (apply page_built).
  destruct (built_ok _ Hb) as (H1 & H2 & _). apply C107_panics; try done.
  - split.
    + intros l w H. apply elem_of_list_to_map_2 in H. repeat (apply elem_of_cons in H as [[= ]|H]). by apply elem_of_nil in H.
    + intros c xs d [H|H] Hd; apply elem_of_list_to_map_2 in H; repeat (apply elem_of_cons in H as [[= -> ->]|H]); try (by apply elem_of_nil in H);
        repeat (apply elem_of_cons in Hd as [[= ->]|Hd]; [left; eexists; vm_compute; reflexivity|]); try (apply elem_of_cons in Hd as [[= ]|Hd]);
        repeat (apply elem_of_cons in Hd as [[= ->]|Hd]; [left; eexists; vm_compute; reflexivity|]); by apply elem_of_nil in Hd.
  - left. eexists. vm_compute. reflexivity.
  - exists 30%nat. vm_compute. reflexivity.
Qed.
