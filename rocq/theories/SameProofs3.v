(** * Executions of the code on data at other addresses and on clones (C92). *)
From Verif Require Import GoBase GoStrings DatasetModel LangModel DatasetSpec DatasetProofs3 DatasetProofs4 TemplateModel TemplateSpec
  RenderSpec RenderProofs5 RenderProofs10 SameSpec SameProofs SameProofs2.

Definition gives F ord langs th h t d out : Prop := exists n h1, execute F ord langs th n h t (Some d) = Ok (h1, out).
Lemma gives_executes F ord langs th h t d out : compiled th -> gives F ord langs th h t d out <-> exists h1, executes F ord langs th h t d h1 out.
Proof.
  intros Hc. split.
  - intros (n & h1 & H). exists h1. apply execute_meaning; [done|by exists n].
  - intros [h1 H]. apply execute_meaning in H as [n H]; [|done]. by exists n, h1.
Qed.
Lemma execute_alike R F ord ord' langs th n h h' t d d' h1 out : compiled th -> order_ok ord -> order_ok ord' -> one_to_one R \/ loop_free th t ->
  alike R h h' -> R d d' -> execute F ord langs th n h t (Some d) = Ok (h1, out) ->
  exists n' h1', execute F ord' langs th n' h' t (Some d') = Ok (h1', out) /\ alike R h1 h1'.
Proof.
  intros Hc Ho Ho' Hb Ha HR H. assert (He : executes F ord langs th h t d h1 out) by (apply execute_meaning; [done|by exists n]).
  destruct (executes_alike R F ord ord' langs th h h' t d d' h1 out Ho Ho' Hb Ha HR He) as (h1' & Hx & ?).
  apply execute_meaning in Hx as [n' Hx]; [|done]. by exists n', h1'.
Qed.
Lemma clone_execute F ord ord' ordc langs th n h l h' l' t : compiled th -> order_ok ord -> order_ok ord' -> order_ok ordc ->
  complete h l -> clone ordc n h l = Ok (h', l') -> loop_free th t \/ unshared h l ->
  forall out, ((exists k h1, execute F ord langs th k h t (Some l) = Ok (h1, out)) <-> (exists k h1, execute F ord' langs th k h' t (Some l') = Ok (h1, out))) /\
  ((exists k h1, execute F ord langs th k h' t (Some l) = Ok (h1, out)) <-> (exists k h1, execute F ord' langs th k h' t (Some l') = Ok (h1, out))).
Proof.
  intros Hc Ho Ho' Hoc Hcp Hcl Hb out.
  pose proof (clone_same_text F ord ord' ordc langs th n h l h' l' t out Ho Ho' Hoc Hcp Hcl Hb) as [H1 H2].
  pose proof (gives_executes F ord langs th h t l out Hc) as E1. pose proof (gives_executes F ord langs th h' t l out Hc) as E2.
  pose proof (gives_executes F ord' langs th h' t l' out Hc) as E3. unfold gives in *. split.
  - rewrite E1, E3. exact H1.
  - rewrite E2, E3. exact H2.
Qed.
Lemma clone_is_unshared ord n h l h' l' : order_ok ord -> clone ord n h l = Ok (h', l') -> unshared h' l'.
Proof. apply clone_unshared. Qed.

(** Dataset 3 is the element of the collection and the value of d. *)
Definition shared_shop : heap := list_to_map
  [(1%positive, ds [("c"%string, VRef 2); ("d"%string, VRef 3)]); (2%positive, OColl [Some 3%positive]); (3%positive, ds [("n"%string, VStr (B "first"))])].
Definition cloned_data (h : heap) (l : loc) : heap * loc := match clone ord0 9 h l with Ok r => r | _ => (∅, 1%positive) end.
Lemma shared_clone : clone ord0 9 shared_shop 1%positive = Ok (cloned_data shared_shop 1).
Proof. vm_compute. reflexivity. Qed.
Definition looping : string := "@@c:a@@{{d>.counter}}[[a]]x[[]]".
Lemma shared_differs : exists th t h l n h' l', built th /\ complete h l /\ clone ord0 n h l = Ok (h', l') /\
  forall F langs, exists h1 h2, execute F ord0 langs th 30 h t (Some l) = Ok (h1, B "x1") /\ execute F ord0 langs th 30 h' t (Some l') = Ok (h2, B "x").
Proof.
  exists (page looping).1, (page looping).2, shared_shop, 1%positive, 9%nat, (cloned_data shared_shop 1).1, (cloned_data shared_shop 1).2.
  split; [apply page_built|]. split.
  - assert (H : forall x, reach shared_shop 1 x -> x = 1%positive \/ x = 2%positive \/ x = 3%positive).
    { apply (rtc_ind_r (fun x => x = 1%positive \/ x = 2%positive \/ x = 3%positive)); [by left|]. intros y z _ Hyz Hy.
      destruct Hy as [->|[->| ->]]; inversion Hyz as [? m k ? E1 E2|? ? E1|? xs ? [E1|E1] Hin]; subst; vm_compute in E1; try discriminate E1; injection E1 as <-.
      - apply elem_of_map_to_list in E2. vm_compute in E2. repeat (apply elem_of_cons in E2 as [E2|E2]; [injection E2 as ? ?; subst; tauto|]).
        by apply elem_of_nil in E2.
      - apply elem_of_list_singleton in Hin. injection Hin as ->. tauto.
      - apply elem_of_map_to_list in E2. vm_compute in E2. repeat (apply elem_of_cons in E2 as [E2|E2]; [discriminate E2|]).
        by apply elem_of_nil in E2. }
    intros x Hx. apply H in Hx as [->|[->| ->]]; (split; [eexists; vm_compute; reflexivity|]); (split; [vm_compute; discriminate|]);
      intros xs [E|E]; vm_compute in E; try discriminate E. injection E as <-. by intros ?%elem_of_list_singleton.
  - split; [by rewrite shared_clone; destruct (cloned_data _ _)|]. intros F langs. eexists _, _.
    split; apply (run_ok F ord0 langs looping); vm_compute; reflexivity.
Qed.
