(** * Races between the methods of XTemplate. *)
From Verif Require Import GoBase SkelModel SkelProofs Skeletons ExecSkel.

Section Access.
  Context {V : Type}.
  Fixpoint touches (w : bool) (x : V) (c : cmd V) : Prop :=
    match c with
    | Do (Wr y) => y = x
    | Do (Rd y) => w = false /\ y = x
    | Seq a b | Alt a b => touches w x a \/ touches w x b
    | Star a => touches w x a
    | _ => False
    end.
  Lemma path_touches c p : path c p -> forall x, (Wr x ∈ p -> touches true x c) /\ (Rd x ∈ p \/ Wr x ∈ p -> touches false x c).
  Proof.
    induction 1 as [|i|a b p q _ IHa _ IHb|a b p _ IH|a b p _ IH|a|a p q _ IHa _ IHb]; intros x; simpl.
    - split; [by intros ?%elem_of_nil|by intros [?%elem_of_nil|?%elem_of_nil]].
    - rewrite !elem_of_list_singleton. split; [intros <-; done|]. intros [<-|<-]; done.
    - rewrite !elem_of_app. destruct (IHa x), (IHb x). split; naive_solver.
    - destruct (IH x). naive_solver.
    - destruct (IH x). naive_solver.
    - split; [by intros ?%elem_of_nil|by intros [?%elem_of_nil|?%elem_of_nil]].
    - rewrite !elem_of_app. destruct (IHa x), (IHb x). split; naive_solver.
  Qed.
  (** What remains of a call is a part of one of its paths. *)
  Lemma step_parts (s s' : state V) t : step s (Go t) = Some s' ->
    s_code s' = s_code s \/ exists i rest, s_code s t = i :: rest /\ s_code s' = setc (s_code s) t rest.
  Proof.
    cbn [step]. destruct (s_code s t) as [|i rest] eqn:Ec; [done|].
    intros H. destruct i; repeat (case_match; try done); simplify_eq; (by left) || (right; eexists _, rest; by split).
  Qed.
  Lemma exec_parts (may : nat -> cmd V -> Prop) acts s :
    Forall (fun a => match a with Begin t p => exists c, may t c /\ path c p | Go _ => True end) acts ->
    exec start acts = Some s -> forall t, s_code s t = [] \/ exists c q, may t c /\ path c (q ++ s_code s t).
  Proof.
    intros Hc. assert (Hg : forall s0, (forall t, s_code s0 t = [] \/ exists c q, may t c /\ path c (q ++ s_code s0 t)) ->
      exec s0 acts = Some s -> forall t, s_code s t = [] \/ exists c q, may t c /\ path c (q ++ s_code s t)).
    2:{ apply Hg. intros t. by left. }
    induction Hc as [|a acts Ha _ IH]; intros s0 Hs0 He; [simpl in He; by simplify_eq|].
    cbn [exec] in He. destruct (step s0 a) as [s1|] eqn:E; [|done]. apply (IH s1); [|done]. clear IH He. intros t.
    destruct a as [t' p|t'].
    - simpl in E. destruct (s_code s0 t'); [|done]. simplify_eq. simpl. unfold setc. case_decide; [|apply Hs0].
      subst. right. destruct Ha as (c & Hm & Hp). by exists c, [].
    - destruct (step_parts _ _ _ E) as [->|(i & rest & Hi & ->)]; [apply Hs0|]. unfold setc. case_decide; [|apply Hs0].
      subst. destruct (Hs0 t') as [Hn|(c & q & Hm & Hp)]; [congruence|].
      right. exists c, (q ++ [i]). split; [done|]. rewrite <- app_assoc. simpl. by rewrite <- Hi.
  Qed.
  Lemma private_no_race (may : nat -> cmd V -> Prop) acts s x :
    (forall t t' c c', t <> t' -> may t c -> may t' c' -> touches true x c -> ~ touches false x c') ->
    Forall (fun a => match a with Begin t p => exists c, may t c /\ path c p | Go _ => True end) acts ->
    exec start acts = Some s -> ~ race s x.
  Proof.
    intros Hm Hc He (t1 & t2 & Hne & [r1 H1] & H2).
    destruct (exec_parts _ _ _ Hc He t1) as [E|(c1 & q1 & Hc1 & Hp1)]; [congruence|].
    assert (Hnil : s_code s t2 <> []) by (destruct H2 as [[r H2]|[r H2]]; congruence).
    destruct (exec_parts _ _ _ Hc He t2) as [E|(c2 & q2 & Hc2 & Hp2)]; [done|].
    apply (Hm t1 t2 c1 c2 Hne Hc1 Hc2).
    - apply (path_touches _ _ Hp1 x). rewrite H1. apply elem_of_app. right. left.
    - apply (path_touches _ _ Hp2 x). destruct H2 as [[r ->]|[r ->]]; [left|right]; apply elem_of_app; right; left.
  Qed.
End Access.

Lemma executing_no_race owner acts s :
  calls_by (executing owner) acts -> exec start acts = Some s -> forall x, ~ race s x.
Proof.
  intros Hc He x. eapply private_no_race; [|exact Hc|exact He]. clear.
  intros t t' c c' Hne Hm Hm' Hw Hr.
  destruct Hm as [->|[->|[(n & Hn & ->)|(n & Hn & ->)]]], Hm' as [->|[->|[(n' & Hn' & ->)|(n' & Hn' & ->)]]]; simpl in Hw, Hr; naive_solver.
Qed.

Ltac by_schedule :=
  repeat (apply Forall_cons; split; [lazymatch goal with
    | |- exists c, _ /\ path c (a_path ?m _) => exists m; split; [by auto|by apply a_path_path]
    | |- _ => exact Logic.I end|]); try apply Forall_nil; try done.
(** Two Executes with a loop on the same plain data. *)
Definition counter_acts : list (act xvar) :=
  [Begin 0 (a_path (x_Execute 0) [true; true; true; false; false; false]); Go 0;
   Begin 1 (a_path (x_Execute 0) [true; false; true; false])].
Lemma counter_race : exists acts s,
  calls_by (fun _ c => c = x_Execute 0) acts /\ exec start acts = Some s /\
  at_write s 0 (Data 0) /\ at_read s 1 (Data 0) /\ race s (Data 0).
Proof.
  exists counter_acts.
  assert (H : match exec start counter_acts with Some s => at_write s 0 (Data 0) /\ at_read s 1 (Data 0) | None => False end).
  { vm_compute. split; eexists; reflexivity. }
  destruct (exec start counter_acts) as [s|]; [|done]. destruct H as [H1 H2]. exists s. split_and!; try done.
  - by_schedule.
  - exists 0, 1. auto.
Qed.
(** Clone at its write of the fathers, Execute or another Clone at a read. *)
Definition clone_tree_acts : list (act xvar) :=
  [Begin 0 (a_path x_Clone [true; false; true; false; false]); Go 0; Begin 1 (a_path x_GetTemplate [true; false])].
Lemma clone_tree_race : exists acts s,
  calls_by (fun _ c => c = x_Clone \/ c = x_GetTemplate) acts /\ exec start acts = Some s /\
  at_write s 0 Tree /\ at_read s 1 Tree /\ race s Tree.
Proof.
  exists clone_tree_acts.
  assert (H : match exec start clone_tree_acts with Some s => at_write s 0 Tree /\ at_read s 1 Tree | None => False end).
  { vm_compute. split; eexists; reflexivity. }
  destruct (exec start clone_tree_acts) as [s|]; [|done]. destruct H as [H1 H2]. exists s. split_and!; try done.
  - by_schedule.
  - exists 0, 1. auto.
Qed.
