(** * Executions at the same time: cases (C112). *)
From Verif Require Import GoBase GoStrings GoStringsProofs DatasetModel LangModel DatasetSpec DatasetProofs2 DatasetProofs3 TemplateModel TemplateSpec TemplateProofs5
  RenderSpec RenderProofs RenderProofs10 HoleSpec HoleProofs2 HoleProofs3 ParModel ParProofs ParProofs2 ParSpec ParProofs3 ParProofs4.
Local Open Scope Z_scope.

(** One schedule: the numbers of the goroutines, in their turn. *)
Fixpoint follow {A} (sch : list nat) (s : heap * list (act A)) : heap * list (act A) :=
  match sch with
  | [] => s
  | i :: sch' => match s.2 !! i with Some (Act w k) => follow sch' (w s.1, <[i := k s.1]> s.2) | _ => follow sch' s end
  end.
Lemma follow_steps {A} sch : forall s : heap * list (act A), rtc par_step s (follow sch s).
Proof.
  induction sch as [|i sch IH]; intros [h ps]; [done|]. cbn [follow fst snd]. destruct (ps !! i) as [[| | |w k]|] eqn:E; try apply IH.
  eapply rtc_l; [by econstructor|apply IH].
Qed.

(** ** Two lists with the same elements in other orders *)
Definition shared : heap := list_to_map
  [(1%positive, ds [("c"%string, VRef 2)]); (2%positive, OCollTS [Some 3%positive; Some 4%positive]);
   (3%positive, OTs (Some 7%positive)); (7%positive, ds [("n"%string, VStr (B "x"))]);
   (4%positive, OTs (Some 8%positive)); (8%positive, ds [("n"%string, VStr (B "y"))]);
   (5%positive, ds [("c"%string, VRef 6)]); (6%positive, OCollTS [Some 4%positive; Some 3%positive])].
Definition numbered : string := "@@c:a@@[[a]]{{.counter}}{{n}} [[]]".
Definition names : string := "@@c:a@@[[a]]{{n}} [[]]".
Definition both_jobs (s : string) : list job := [((page s).2, Some 1%positive); ((page s).2, Some 5%positive)].
Definition schedule (a b c : nat) : list nat := repeat 0%nat a ++ repeat 1%nat b ++ repeat 0%nat c.
Definition after (r : outcome (heap * bytes)) : heap := match r with Ok (h, _) => h | _ => ∅ end.
(** The first writes 1 in x; the second does all its work and writes 2 in x; the first goes on. *)
Lemma noticed : exists th t h d1 d2, built th /\ forall F langs,
  (exists h', rtc par_step (h, started F ord0 langs th 30 [(t, Some d1); (t, Some d2)]) (h', [Ret (B "2x 2y "); Ret (B "1y 2x ")])) /\
  said (execute F ord0 langs th 30 h t (Some d1)) = Ok (B "1x 2y ") /\
  said (execute F ord0 langs th 30 (after (execute F ord0 langs th 30 h t (Some d2))) t (Some d1)) = Ok (B "1x 2y ").
Proof.
  exists (page numbered).1, (page numbered).2, shared, 1%positive, 5%positive. split; [apply page_built|]. intros F langs. split; [|vm_compute; done].
  pose proof (follow_steps (schedule 8 40 40) (shared, started F ord0 langs (page numbered).1 30 (both_jobs numbered))) as H.
  destruct (follow _ _) as [h' ps] eqn:E. exists h'. assert (ps = [Ret (B "2x 2y "); Ret (B "1y 2x ")]) as ->; [|exact H].
  change ps with (h', ps).2. rewrite <- E. vm_compute. reflexivity.
Qed.

(** ** A test for templates that look at no counter *)
Definition plain_key (s : bytes) : bool := negb (existsb (Ascii.eqb ">"%char) s) && bool_decide (s <> B ".counter").
Definition leaf_key (h : heap) (s : bytes) : bool :=
  forallb (fun '(_, o) => match o with ODs m => match m !! s with Some (VRef _) => false | _ => true end | _ => true end) (map_to_list h).
Definition unaware_check (h : heap) (p : param) : bool :=
  match p_type p with
  | 7 => plain_key (TemplateModel.p_data p) && leaf_key h (TemplateModel.p_data p)
  | 6 => bool_decide (TemplateModel.p_data p <> B "dump") && bool_decide (TemplateModel.p_data p <> B "list")
  | 5 => plain_key (until_colon (TemplateModel.p_data p)) && leaf_key h (until_colon (TemplateModel.p_data p))
  | 4 => plain_key (until_colon (TemplateModel.p_data p))
  | 3 => Nat.eqb (count_occ Ascii.ascii_dec (TemplateModel.p_data p) ":"%char) 0
  | _ => true
  end.
Lemma plain_no_gt s : plain_key s = true -> gt ∉ s /\ no_counter s.
Proof.
  intros H. apply andb_true_iff in H as [H1 H2]. apply bool_decide_eq_true in H2. assert (Hg : gt ∉ s).
  { intros Hin. assert (existsb (Ascii.eqb ">"%char) s = true) as E; [|by rewrite E in H1]. apply existsb_exists. exists ">"%char. split; [by apply elem_of_list_In|done]. }
  split; [done|]. intros w ws Hs. apply separated_split in Hs. rewrite (split_on_none gt s Hg : split_on ">"%char s = [s]) in Hs. injection Hs as <- <-.
  intros Hin. apply elem_of_list_singleton in Hin. by subst.
Qed.
Lemma leaf_answers h s d l : plain_key s = true -> leaf_key h s = true -> ~ answers h d s (Some (VRef l)).
Proof.
  intros Hp Hl Ha. apply plain_no_gt in Hp as [Hg _]. apply answers_gets in Ha. destruct (gets_inside h d s (Some (VRef l)) Ha) as (x & m & Hi).
  apply (gets_simple h d x m s _ Hi Hg) in Ha. apply inside_at in Hi. unfold leaf_key in Hl. rewrite forallb_forall in Hl.
  specialize (Hl (x, ODs m)). cbn in Hl. rewrite <- Ha in Hl. assert (false = true); [|done]. apply Hl. apply elem_of_list_In. by apply elem_of_map_to_list.
Qed.
Lemma quiet_checked th h j : compiled th ->
  forallb (fun '(_, T) => match t_root T with Some ps => forallb (unaware_check h) ps | None => true end) (map_to_list th) = true ->
  leaf_key h (B ".counter") = true -> quiet th h j.
Proof.
  intros Hc Hf Hk. split.
  - intros x T l _ HT Hr. destruct (Hc x T _ HT Hr) as (l' & El & Htok). rewrite forallb_forall in Hf. specialize (Hf (x, T)). cbn in Hf. rewrite Hr in Hf.
    assert (Hps : forallb (unaware_check h) (map stored l) = true) by (apply Hf, elem_of_list_In; by apply elem_of_map_to_list).
    assert (Hin : forall t, t ∈ l -> exists t', t' ∈ l' /\ stored t = stored t').
    { intros t Ht. assert (stored t ∈ map stored l') as Hs by (rewrite <- El; by apply elem_of_list_fmap_1). apply elem_of_list_fmap in Hs as (t' & ? & ?). eauto. }
    apply Forall_forall. intros t Ht. rewrite forallb_forall in Hps. assert (Hu : unaware_check h (stored t) = true) by (apply Hps, in_map, elem_of_list_In, Ht).
    destruct (Hin t Ht) as (t' & Ht' & Es). rewrite Forall_forall in Htok. destruct (Htok t' Ht') as [N1 N2].
    destruct t as [s|s|s|s|s|s|s|s|s|]; cbn in Hu; try (constructor; done).
    + apply Nat.eqb_eq in Hu. constructor; intros a f; intros; exfalso; match goal with H : separated _ _ _ _ |- _ => apply colon_count in H; rewrite Hu in H; done end.
    + constructor. intros d b Hd. assert (until_colon s = d) as <- by (destruct Hd as [[Hd _]|[ws Hd]]; by eapply until_colon_prefix). by apply plain_no_gt.
    + apply andb_true_iff in Hu as [H1 H2]. constructor. intros d b Hd. assert (until_colon s = d) as <- by (destruct Hd as [[Hd _]|[ws Hd]]; by eapply until_colon_prefix).
      split; [by apply plain_no_gt|]. intros y c xs _ Ha. by destruct (leaf_answers h (until_colon s) y c).
    + apply andb_true_iff in Hu as [H1 H2]. apply bool_decide_eq_true in H1, H2. by constructor.
    + apply andb_true_iff in Hu as [H1 H2]. constructor; [by apply plain_no_gt|]. intros d y _. by apply leaf_answers.
    + exfalso. destruct t'; try done. cbn in Es. by destruct (N2 s0).
    + exfalso. by destruct t'.
  - intros x m l _ Hx Hm. unfold leaf_key in Hk. rewrite forallb_forall in Hk. specialize (Hk (x, ODs m)). cbn [fst snd] in Hk. rewrite Hm in Hk.
    assert (false = true); [|done]. apply Hk. apply elem_of_list_In. by apply elem_of_map_to_list.
Qed.
Lemma quiet_case : built (page names).1 /\ quiet (page names).1 shared ((page names).2, Some 1%positive) /\ quiet (page names).1 shared ((page names).2, Some 5%positive) /\
  forall F langs, said (execute F ord0 langs (page names).1 30 shared (page names).2 (Some 1%positive)) = Ok (B "x y ") /\
    said (execute F ord0 langs (page names).1 30 shared (page names).2 (Some 5%positive)) = Ok (B "y x ").
Proof.
  split; [apply page_built|]. split; [|split]; [apply quiet_checked; [apply page_compiled|vm_compute; reflexivity..]..|]. intros F langs. vm_compute. done.
Qed.

(** ** Data apart *)
Definition children (h : heap) (x : loc) : list loc :=
  match h !! x with
  | Some (ODs m) => omap (fun '(_, v) => match v with VRef d => Some d | _ => None end) (map_to_list m)
  | Some (OTs (Some d)) => [d]
  | Some (OColl xs) | Some (OCollTS xs) => omap id xs
  | _ => []
  end.
Lemma child_in h x y : child h x y -> y ∈ children h x.
Proof.
  intros [l m k d E1 E2|l d E1|l xs d E1 E2]; unfold children.
  - rewrite E1. apply elem_of_list_omap. exists (k, VRef d). split; [by apply elem_of_map_to_list|done].
  - rewrite E1. by left.
  - assert (d ∈ omap id xs) by (apply elem_of_list_omap; by exists (Some d)). by destruct E1 as [-> | ->].
Qed.
Lemma region_in h d (P : list loc) : d ∈ P -> forallb (fun x => forallb (fun y => bool_decide (y ∈ P)) (children h x)) P = true -> forall x, region h (Some d) x -> x ∈ P.
Proof.
  intros Hd HP x (d' & [= <-] & Hr). induction Hr as [x|x y z Hc _ IH]; [done|]. apply IH. apply child_in in Hc.
  rewrite forallb_forall in HP. pose proof (HP x (proj1 (elem_of_list_In _ _) Hd)) as Hx. rewrite forallb_forall in Hx. pose proof (Hx y (proj1 (elem_of_list_In _ _) Hc)) as Hy.
  by apply bool_decide_eq_true in Hy.
Qed.
Lemma member_region h data x : member h data x -> region h data x.
Proof.
  intros (c & xs & e & m & (d & Hd & Hr) & Hc & He & Hi). exists d. split; [done|]. eapply rtc_transitive; [exact Hr|].
  eapply rtc_l; [by eapply child_coll|]. clear He. induction Hi as [l m Hl|l d' t m Hl _ IH]; [done|]. eapply rtc_l; [by apply child_ts|done].
Qed.
Definition separate : heap := list_to_map
  [(1%positive, ds [("c"%string, VRef 2); ("all"%string, VRef 9)]); (2%positive, OCollTS [Some 3%positive; Some 4%positive]);
   (3%positive, ds [("n"%string, VStr (B "x"))]); (4%positive, ds [("n"%string, VStr (B "y"))]);
   (5%positive, ds [("c"%string, VRef 6); ("all"%string, VRef 9)]); (6%positive, OCollTS [Some 7%positive]); (7%positive, ds [("n"%string, VStr (B "z"))]);
   (9%positive, ds [("site"%string, VStr (B "S"))])].
Definition report : string := "@@c:a@@{{all}}{{c}}[[a]]{{.counter}}{{n}} [[]]".
Lemma apart_case : built (page report).1 /\ apart (page report).1 separate ((page report).2, Some 1%positive) ((page report).2, Some 5%positive) /\
  apart (page report).1 separate ((page report).2, Some 5%positive) ((page report).2, Some 1%positive) /\
  (exists x, region separate (Some 1%positive) x /\ region separate (Some 5%positive) x) /\
  forall F langs, said (execute F ord0 langs (page report).1 30 separate (page report).2 (Some 5%positive)) =
    Ok (B "1z xcore.XDataset{site:S}XDatasetCollectionTS[0:xcore.XDataset{.counter:1 n:z} ]").
Proof.
  assert (R1 : forall x, region separate (Some 1%positive) x -> x ∈ [1; 2; 3; 4; 9]%positive) by (apply region_in; [by left|vm_compute; reflexivity]).
  assert (R5 : forall x, region separate (Some 5%positive) x -> x ∈ [5; 6; 7; 9]%positive) by (apply region_in; [by left|vm_compute; reflexivity]).
  assert (Hel : forall c xs, collection_at separate c xs -> c ∈ [1; 2; 3; 4; 9; 5; 6; 7]%positive -> c = 2%positive /\ xs = [Some 3%positive; Some 4%positive] \/ c = 6%positive /\ xs = [Some 7%positive]).
  { intros c xs Hx Hc. repeat (apply elem_of_cons in Hc as [->|Hc]; [destruct Hx as [Hx|Hx]; vm_compute in Hx; injection Hx as <- || discriminate Hx; auto|]). by apply elem_of_nil in Hc. }
  assert (Hin : forall e x m, inside separate e x m -> e ∈ [3; 4; 7]%positive -> x = e).
  { intros e x m Hi He. destruct Hi as [l m Hl|l d t m Hl _]; [done|]. exfalso. repeat (apply elem_of_cons in He as [->|He]; [by vm_compute in Hl|]). by apply elem_of_nil in He. }
  split; [apply page_built|]. split; [|split; [|split]].
  - right. intros x (c & xs & e & m & Hc & Hx & He & Hi) Hr. apply R1 in Hr. apply R5 in Hc. destruct (Hel c xs Hx) as [[-> _]|[-> ->]]; [set_solver|set_solver|].
    apply elem_of_list_singleton in He as [= ->]. rewrite (Hin _ _ _ Hi) in Hr by set_solver. set_solver.
  - right. intros x (c & xs & e & m & Hc & Hx & He & Hi) Hr. apply R5 in Hr. apply R1 in Hc. destruct (Hel c xs Hx) as [[-> ->]|[-> _]]; [set_solver| |set_solver].
    assert (e = 3%positive \/ e = 4%positive) as He' by set_solver. rewrite (Hin _ _ _ Hi) in Hr by set_solver. set_solver.
  - exists 9%positive. split; [exists 1%positive|exists 5%positive]; (split; [done|]); apply rtc_once; eapply (child_ds _ _ _ (B "all")); vm_compute; reflexivity.
  - intros F langs. vm_compute. reflexivity.
Qed.
Lemma par_stops {A} (h : heap) (ps : list (act A)) : Acc (flip par_step) (h, ps) /\ ((forall s, ~ par_step (h, ps) s) -> Forall (fun p => exists o, p = lift o) ps).
Proof.
  split; [apply par_ends|]. intros Hs. apply Forall_lookup. intros i p Hp. destruct p as [a| | |w k]; [by exists (Ok a)|by exists Panic|by exists NoFuel|].
  destruct (Hs (w h, <[i := k h]> ps)). by constructor.
Qed.
