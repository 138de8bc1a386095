(** * C127: examples. *)
From Verif Require Import GoBase GoStrings LangModel DatasetModel DatasetSpec DatasetProofs3 TemplateModel ParModel SnapModel TellModel WaitModel WaitSpec WaitProofs2 WaitProofs4 ServeModel ServeSpec ServeProofs2.
Local Open Scope nat_scope.

(** The pages: the child's x, the parent's x, a list. *)
Definition pages : theap :=
  list_to_map [(1%positive, Tmpl (B "child") (Some [Param MVariable (B "child>x")]) None None);
               (2%positive, Tmpl (B "parent") (Some [Param MVariable (B "parent>x")]) None None);
               (3%positive, Tmpl (B "list") (Some [Param MRange (B "list:row")]) (Some {[ B "row" := 4%positive ]}) None);
               (4%positive, Tmpl (B "row") (Some [Param MVariable (B ".counter"); Param MString (B ":"); Param MVariable (B "x"); Param MString (B " ")]) None (Some 3%positive))].
(** Two lists: the mothers and the daughters. *)
Definition mothers : loc := 5%positive.
Definition daughters : loc := 6%positive.
Definition lists : heap :=
  list_to_map [(mothers, map1 [(B "list", VRef 7%positive)]); (7%positive, OColl [Some mother]);
               (daughters, map1 [(B "list", VRef 8%positive)]); (8%positive, OColl [Some daughter])].
Section Pages.
  Context (F : golib) (ord : heap -> gmap bytes value -> list (bytes * value)).
  Definition page (t d : loc) : prog bytes := s_execute F ord (fun _ => None) pages 9 t (Some d).
  (** Each goroutine executes one template. *)
  Definition visits : list (prog unit) := [run (page 1 mother); run (page 2 daughter); run (page 3 mothers); run (page 3 daughters)].
  Lemma visits_servers : Forall (server F ord) visits.
  Proof.
    unfold visits. repeat (apply Forall_cons; split; [exact (serves_execute F ord _ _ _ _ _ _ (fun _ => serves_done F ord tt))|]). apply Forall_nil; exact I.
  Qed.
  Definition visit_schedule : list nat := replicate 8 0 ++ replicate 8 1 ++ replicate 9 2 ++ replicate 9 3.
  (** The child refers to its parent. *)
  Lemma pages_deadlock : exists (path : nat -> heap * list (routine unit)) T, history T path /\ path 0 = (family ∪ lists, map fresh visits) /\
    tc (waits (path T).2) 0 0 /\ frozen (path T).
  Proof.
    assert (H : last_of (family ∪ lists, map fresh visits) visit_schedule (fun s => circle4 0 3 1 2 s.2 && frozen_b s) (fun _ => true) = true) by (vm_compute; reflexivity).
    apply last_spec in H as (path & Hp & H0 & [Hc Hf]%andb_true_iff & _). exists path, (length visit_schedule).
    split; [exact Hp|]. split; [exact H0|]. split; [exact (circle_spec _ _ _ _ _ Hc)|exact (frozen_spec _ Hf)].
  Qed.
  (** The same without that reference. *)
  Lemma page_server t d : server F ord (pbind (page t d) (fun b => Done b)).
  Proof. exact (serves_execute F ord _ _ _ _ _ _ (fun b => serves_done F ord b)). Qed.
  Definition jobs : list (prog bytes) := [b <~~ page 1 mother; Done b; b <~~ page 3 mothers; Done b; b <~~ page 3 daughters; Done b].
  Lemma jobs_servers : Forall (server F ord) jobs.
  Proof. unfold jobs. repeat (apply Forall_cons; split; [apply page_server|]). apply Forall_nil; exact I. Qed.
  Definition waiting : list nat := replicate 8 0 ++ replicate 9 1 ++ replicate 9 2.
  Definition going : list nat := replicate 13 2 ++ replicate 4 0 ++ replicate 13 1.
  Definition rank_lists (l : loc) : nat := match l with 5%positive | 6%positive => 6 | 7%positive | 8%positive => 5 | _ => rank_house l end.
  Definition printed (s : heap * list (routine bytes)) : bool :=
    match s.2 with
    | [Routine [] _ (Done a); Routine [] _ (Done b); Routine [] _ (Done c)] => bool_decide (a = B "2") && bool_decide (b = B "1:1 ") && bool_decide (c = B "1:2 ")
    | _ => false
    end.
  Lemma jobs_case : ranked rank_lists (house ∪ lists) /\ filled (house ∪ lists) /\
    (exists path, history 26 path /\ path 0 = (house ∪ lists, map fresh jobs) /\ waits (path 26).2 1 0 /\ waits (path 26).2 0 2) /\
    exists path, history 56 path /\ path 0 = (house ∪ lists, map fresh jobs) /\
      (path 56).2 = [Routine [] false (Done (B "2")); Routine [] false (Done (B "1:1 ")); Routine [] false (Done (B "1:2 "))].
  Proof.
    split; [apply ranked_spec; vm_compute; reflexivity|]. split.
    { assert (Hd : dataset_at (house ∪ lists) 3%positive /\ dataset_at (house ∪ lists) 4%positive) by (split; vm_compute; exact I).
      intros l o El. assert (Hin : (l, OTs o) ∈ map_to_list (house ∪ lists)) by (by apply elem_of_map_to_list).
      assert (Hl : l = mother /\ o = Some 3%positive \/ l = daughter /\ o = Some 4%positive).
      { revert Hin. assert (Hall : Forall (fun x : loc * obj => match x.2 with OTs o => x.1 = mother /\ o = Some 3%positive \/ x.1 = daughter /\ o = Some 4%positive | _ => True end) (map_to_list (house ∪ lists))).
        { set (L := map_to_list (house ∪ lists)). vm_compute in L. subst L. repeat (apply Forall_cons; split; [first [exact I|left; split; reflexivity|right; split; reflexivity]|]). apply Forall_nil; exact I. }
        rewrite Forall_forall in Hall. exact (Hall (l, OTs o)). }
      destruct Hl as [[-> ->]|[-> ->]]; eexists; (split; [reflexivity|apply Hd]). }
    split.
    - assert (H : last_of (house ∪ lists, map fresh jobs) waiting (fun s => waits_b s.2 1 0 && waits_b s.2 0 2) (fun _ => true) = true) by (vm_compute; reflexivity).
      apply last_spec in H as (path & Hp & H0 & [H1%waits_spec H2%waits_spec]%andb_true_iff & _). change (length waiting) with 26 in *.
      exists path. split; [exact Hp|]. split; [exact H0|]. split; assumption.
    - assert (H : last_of (house ∪ lists, map fresh jobs) (waiting ++ going) (fun s => printed s && forallb (fun g => negb (asked g)) s.2) (fun _ => true) = true) by (vm_compute; reflexivity).
      apply last_spec in H as (path & Hp & H0 & [Hq Ha]%andb_true_iff & _). change (length (waiting ++ going)) with 56 in *.
      exists path. split; [exact Hp|]. split; [exact H0|]. destruct (path 56) as [hh gs]. unfold printed in Hq. cbn [snd] in *.
      destruct gs as [|[[|] b0 [a0| | | | |]] [|[[|] b1 [a1| | | | |]] [|[[|] b2 [a2| | | | |]] [|]]]]; try discriminate Hq.
      apply andb_true_iff in Hq as [[->%bool_decide_eq_true ->%bool_decide_eq_true]%andb_true_iff ->%bool_decide_eq_true].
      destruct b0, b1, b2; try discriminate Ha. reflexivity.
  Qed.
End Pages.
