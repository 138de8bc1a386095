(** * Executions among goroutines that change the data: cases (C116). *)
From Verif Require Import GoBase GoStrings GoStringsProofs DatasetModel LangModel DatasetSpec DatasetProofs2 DatasetProofs3 TemplateModel TemplateSpec TemplateProofs5
  RenderSpec RenderProofs RenderProofs10 HoleSpec HoleProofs2 HoleProofs3 ParModel ParProofs ParProofs2 ParSpec ParProofs3 ParProofs4 ParProofs5 MeanSpec MeanProofs MeanProofs2 MeanProofs3.
Local Open Scope Z_scope.

(** ** A test for templates that do not look at some keys *)
Definition blind_check (ws : list bytes) (h : heap) (p : param) : bool :=
  let key s := plain_key s && bool_decide (s ∉ ws) in
  match p_type p with
  | 7 => key (TemplateModel.p_data p) && leaf_key h (TemplateModel.p_data p)
  | 6 => bool_decide (TemplateModel.p_data p <> B "dump") && bool_decide (TemplateModel.p_data p <> B "list")
  | 5 => key (until_colon (TemplateModel.p_data p)) && leaf_key h (until_colon (TemplateModel.p_data p))
  | 4 => key (until_colon (TemplateModel.p_data p))
  | 3 => Nat.eqb (count_occ Ascii.ascii_dec (TemplateModel.p_data p) ":"%char) 0
  | _ => true
  end.
Lemma avoids_plain (ws : list bytes) s : plain_key s && bool_decide (s ∉ ws) = true -> plain_key s = true /\ avoids (fun k => k ∈ ws) s.
Proof.
  intros H. apply andb_true_iff in H as [H1 H2]. apply bool_decide_eq_true in H2. split; [done|]. apply plain_no_gt in H1 as [Hg _].
  intros w ws' Hs. apply separated_split in Hs. rewrite (split_on_none gt s Hg : split_on ">"%char s = [s]) in Hs. injection Hs as <- <-. by repeat constructor.
Qed.
Lemma blind_checked th h d (ws : list bytes) : compiled th ->
  forallb (fun '(_, T) => match t_root T with Some ps => forallb (blind_check ws h) ps | None => true end) (map_to_list th) = true ->
  forall t x T l, reaches th t x -> th !! x = Some T -> t_root T = Some (map stored l) -> Forall (blind (fun k => k ∈ ws) h d) l.
Proof.
  intros Hc Hf t x T l _ HT Hr. destruct (Hc x T _ HT Hr) as (l' & El & Htok). rewrite forallb_forall in Hf. specialize (Hf (x, T)). cbn in Hf. rewrite Hr in Hf.
  assert (Hps : forallb (blind_check ws h) (map stored l) = true) by (apply Hf, elem_of_list_In; by apply elem_of_map_to_list).
  assert (Hin : forall t, t ∈ l -> exists t', t' ∈ l' /\ stored t = stored t').
  { intros u Hu. assert (stored u ∈ map stored l') as Hs by (rewrite <- El; by apply elem_of_list_fmap_1). apply elem_of_list_fmap in Hs as (t' & ? & ?). eauto. }
  apply Forall_forall. intros u Hu0. rewrite forallb_forall in Hps. assert (Hu : blind_check ws h (stored u) = true) by (apply Hps, in_map, elem_of_list_In, Hu0).
  destruct (Hin u Hu0) as (t' & Ht' & Es). rewrite Forall_forall in Htok. destruct (Htok t' Ht') as [N1 N2].
  destruct u as [s|s|s|s|s|s|s|s|s|]; cbn in Hu; try (constructor; done).
  - apply Nat.eqb_eq in Hu. constructor; intros a f; intros; exfalso; match goal with H : separated _ _ _ _ |- _ => apply colon_count in H; rewrite Hu in H; done end.
  - constructor. intros e b Hd. assert (until_colon s = e) as <- by (destruct Hd as [[Hd _]|[w Hd]]; by eapply until_colon_prefix). by apply avoids_plain.
  - apply andb_true_iff in Hu as [H1 H2]. apply avoids_plain in H1 as [H0 H1]. constructor. intros e b Hd. assert (until_colon s = e) as <- by (destruct Hd as [[Hd _]|[w Hd]]; by eapply until_colon_prefix).
    split; [done|]. intros y c _. by apply leaf_answers.
  - apply andb_true_iff in Hu as [H1 H2]. apply bool_decide_eq_true in H1, H2. by constructor.
  - apply andb_true_iff in Hu as [H1 H2]. apply avoids_plain in H1 as [H0 H1]. constructor; [done|]. intros e y _. by apply leaf_answers.
  - exfalso. destruct t'; try done. cbn in Es. by destruct (N2 s0).
  - exfalso. by destruct t'.
Qed.

(** ** A clock that is set in the elements while they are printed *)
Definition clocked : list bytes := [B ".counter"; B "clock"].
Definition tick : act bytes := changes (fun h => dset 30 h 3%positive (B "clock") (VStr (B "12:00"))).
Lemma clock_case : forall F langs, let th := (page names).1 in let t := (page names).2 in
  compiled th /\ Forall (tame (fun k => k ∈ clocked) (seen (fun k => k ∈ clocked) shared 1%positive)) [p_execute F ord0 langs th 30 t (Some 1%positive); tick] /\
  (forall x Tx l, reaches th t x -> th !! x = Some Tx -> t_root Tx = Some (map stored l) -> Forall (blind (fun k => k ∈ clocked) shared 1%positive) l) /\
  seen (fun k => k ∈ clocked) shared 1%positive 7%positive /\
  exists h, rtc par_step (shared, [p_execute F ord0 langs th 30 t (Some 1%positive); tick]) (h, [Ret (B "x y "); Ret []]) /\
    dget 30 h 3%positive (B "clock") = Ok (Some (VStr (B "12:00"))).
Proof.
  intros F langs th t. assert (Hc : compiled th) by apply page_compiled. split; [done|]. split; [|split; [|split]].
  - assert (H1 : B ".counter" ∈ clocked) by (by left). assert (H2 : B "clock" ∈ clocked) by (right; by left).
    constructor; [by apply tame_execute|]. constructor; [|constructor]. unfold tick, changes. apply tame_bind; [|done]. by apply tame_set.
  - intros x Tx l. apply blind_checked; [done|vm_compute; reflexivity].
  - eapply rtc_l; [eapply (sn_ds _ _ _ _ (B "c")); [vm_compute; reflexivity|vm_compute; set_solver|vm_compute; reflexivity]|].
    eapply rtc_l; [eapply (sn_coll _ _ _ [Some 3%positive; Some 4%positive] 3%positive); [right; vm_compute; reflexivity|by left]|]. apply rtc_once. by constructor.
  - pose proof (follow_steps (repeat 0%nat 7 ++ [1%nat] ++ repeat 0%nat 40) (shared, [p_execute F ord0 langs th 30 t (Some 1%positive); tick])) as H.
    destruct (follow _ _) as [h' ps] eqn:E. exists h'.
    assert (Hg : dget 30 h' 3%positive (B "clock") = Ok (Some (VStr (B "12:00")))) by (change h' with (h', ps).1; rewrite <- E; vm_compute; reflexivity).
    assert (ps = [Ret (B "x y "); Ret []]) as ->; [change ps with (h', ps).2; rewrite <- E; vm_compute; reflexivity|]. split; [exact H|exact Hg].
Qed.

(** ** No moment of the data *)
Definition pair : heap := list_to_map [(1%positive, OTs (Some 2%positive)); (2%positive, ds [("a"%string, VStr (B "0")); ("b"%string, VStr (B "0"))])].
Definition set_one (k : string) (h : heap) : outcome heap := dset 30 h 1%positive (B k) (VStr (B "1")).
Definition set_both : act bytes := _ <~ write (set_one "a"); _ <~ write (set_one "b"); Ret [].
Definition then_ (r : outcome heap) (f : heap -> outcome heap) : outcome heap := h <-! r; f h.
Definition at_end (F : golib) langs (p : theap * loc) (r : outcome heap) : outcome bytes := h <-! r; said (execute F ord0 langs p.1 30 h p.2 (Some 1%positive)).
Ltac followed sch s out :=
  let H := fresh "H" in let E := fresh "E" in let h' := fresh "h'" in let ps := fresh "ps" in
  pose proof (follow_steps sch s) as H; destruct (follow sch s) as [h' ps] eqn:E; exists h';
  assert (ps = out) as ->; [change ps with (h', ps).2; rewrite <- E; vm_compute; reflexivity|exact H].
Lemma no_snapshot : exists p h, built p.1 /\ forall F langs,
  (exists h', rtc par_step (h, [p_execute F ord0 langs p.1 30 p.2 (Some 1%positive); set_both]) (h', [Ret (B "01"); Ret []])) /\
  at_end F langs p (Ok h) = Ok (B "00") /\ at_end F langs p (set_one "a" h) = Ok (B "10") /\ at_end F langs p (then_ (set_one "a" h) (set_one "b")) = Ok (B "11").
Proof.
  exists (page "{{a}}{{b}}"), pair. split; [apply page_built|]. intros F langs. split; [|vm_compute; done].
  followed (repeat 0%nat 3 ++ repeat 1%nat 2 ++ repeat 0%nat 10) (pair, [p_execute F ord0 langs (page "{{a}}{{b}}").1 30 (page "{{a}}{{b}}").2 (Some 1%positive); set_both]) ([Ret (B "01"); Ret []] : list (act bytes)).
Qed.

(** ** Collections that change during a loop *)
Definition three : heap := list_to_map
  [(1%positive, OTs (Some 6%positive)); (6%positive, ds [("c"%string, VRef 2)]); (2%positive, OCollTS [Some 3%positive; Some 4%positive; Some 5%positive]);
   (3%positive, OTs (Some 7%positive)); (7%positive, ds [("n"%string, VStr (B "x"))]);
   (4%positive, OTs (Some 8%positive)); (8%positive, ds [("n"%string, VStr (B "y"))]);
   (5%positive, OTs (Some 9%positive)); (9%positive, ds [("n"%string, VStr (B "z"))])].
Definition pop (h : heap) : outcome heap := r <-! cpop h 2%positive; Ok r.1.
Definition shift (h : heap) : outcome heap := r <-! cshift h 2%positive; Ok r.1.
Definition unshift (h : heap) : outcome heap := cunshift h 2%positive (Some 5%positive).
Definition listing : theap * loc := page "@@c:a@@[[a]]{{n}}[[]]".
Lemma loop_changes : exists p h, built p.1 /\ forall F langs,
  let beside w r := exists h', rtc par_step (h, [p_execute F ord0 langs p.1 30 p.2 (Some 1%positive); changes w]) (h', [r; Ret []]) in
  at_end F langs p (Ok h) = Ok (B "xyz") /\
  (at_end F langs p (pop h) = Ok (B "xy") /\ beside pop Fail) /\
  (at_end F langs p (shift h) = Ok (B "yz") /\ beside shift (Ret (B "xz"))) /\
  (at_end F langs p (unshift h) = Ok (B "zxyz") /\ beside unshift (Ret (B "xxyz"))).
Proof.
  exists listing, three. split; [apply page_built|]. intros F langs. split; [vm_compute; reflexivity|]. split; [|split]; (split; [vm_compute; reflexivity|]).
  - followed (repeat 0%nat 17 ++ [1%nat] ++ repeat 0%nat 60) (three, [p_execute F ord0 langs listing.1 30 listing.2 (Some 1%positive); changes pop]) ([Fail; Ret []] : list (act bytes)).
  - followed (repeat 0%nat 10 ++ [1%nat] ++ repeat 0%nat 60) (three, [p_execute F ord0 langs listing.1 30 listing.2 (Some 1%positive); changes shift]) ([Ret (B "xz"); Ret []] : list (act bytes)).
  - followed (repeat 0%nat 10 ++ [1%nat] ++ repeat 0%nat 60) (three, [p_execute F ord0 langs listing.1 30 listing.2 (Some 1%positive); changes unshift]) ([Ret (B "xxyz"); Ret []] : list (act bytes)).
Qed.
