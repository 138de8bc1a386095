(** * Cases: templates loaded and extended while other goroutines use them (C118). *)
From Verif Require Import GoBase GoStrings GoStringsProofs Regex DatasetModel LangModel DatasetSpec TemplateModel TemplateSpec RenderSpec RenderProofs10 CrashSpec
  CopyModel CopySpec CopyProofs4 CopyProofs5 EditModel EditSpec EditProofs EditProofs4.

(** ** LoadString of a text with boxes while the template is executed: half of the text is old, half new *)
Definition old : string := "&&a&&&&a&&[[a]]1[[]]".
Definition new : string := "&&a&&&&a&&[[a]]2[[]]".
Definition mixing (t : loc) : list role := [Reader ∅ t None; Reload t (B new)].
Definition text (r : outcome (heap * bytes)) : outcome bytes := match r with Ok (_, b) => Ok b | Panic => Panic | NoFuel => NoFuel end.
Definition seen F langs (th : theap) (t : loc) : outcome bytes := text (execute F ord0 langs th 30 ∅ t None).
Lemma mixed : exists th t data, built th /\ forall F langs,
  seen F langs th t = Ok (B "11") /\ seen F langs (compile th t data).1 t = Ok (B "22") /\
  exists th', rtc tstep (th, map (t_role F ord0 langs 30) [Reader ∅ t None; Reload t data]) (th', [TRet [Text (B "12")]; TRet [Loaded true]]).
Proof.
  exists (page old).1, (page old).2, (B new). split; [apply page_built|]. intros F langs. split; [vm_compute; reflexivity|]. split; [vm_compute; reflexivity|].
  pose proof (tfollow_steps (repeat 0%nat 6 ++ repeat 1%nat 40 ++ repeat 0%nat 40) ((page old).1, map (t_role F ord0 langs 30) (mixing (page old).2))) as H.
  destruct (tfollow _ _) as [h' ps] eqn:E. exists h'. assert (ps = [TRet [Text (B "12")]; TRet [Loaded true]]) as ->; [|exact H].
  change ps with (h', ps).2. rewrite <- E. vm_compute. reflexivity.
Qed.
(** ** AddTemplate twice at the same time: one is lost *)
Definition blank : theap * (loc * loc * loc) :=
  let '(th1, t) := talloc ∅ empty_tmpl in let '(th2, x) := talloc th1 empty_tmpl in let '(th3, y) := talloc th2 empty_tmpl in (th3, (t, x, y)).
Definition has (th : theap) (t : loc) (name : string) : bool := match th !! t with Some T => match subs_of T !! B name with Some _ => true | None => false end | None => false end.
Lemma add_lost : exists th t x y, closed th /\ is_Some (th !! t) /\ is_Some (th !! x) /\ is_Some (th !! y) /\
  has (add_template (add_template th t (B "a") x) t (B "b") y) t "a" = true /\ has (add_template (add_template th t (B "b") y) t (B "a") x) t "a" = true /\
  forall F langs, exists th', rtc tstep (th, [t_calls F ord0 langs 30 [t; x] ∅ [Add 0 (B "a") 1]; t_calls F ord0 langs 30 [t; y] ∅ [Add 0 (B "b") 1]]) (th', [TRet []; TRet []]) /\
    has th' t "a" = false.
Proof.
  exists blank.1, blank.2.1.1, blank.2.1.2, blank.2.2. split.
  { assert (H : forall x X, blank.1 !! x = Some X -> t_subs X = None /\ t_father X = None).
    { intros x X HX. apply elem_of_map_to_list in HX.
      assert (HF : Forall (fun z : loc * tmpl => t_subs z.2 = None /\ t_father z.2 = None) (map_to_list blank.1)) by (vm_compute; repeat constructor).
      rewrite Forall_forall in HF. exact (HF (x, X) HX). }
    split; intros x X; [intros n y HX Hn|intros f HX Hf]; destruct (H x X HX) as [H1 H2]; [unfold subs_of in Hn; by rewrite H1 in Hn|congruence]. }
  split; [vm_compute; by eexists|]. split; [vm_compute; by eexists|]. split; [vm_compute; by eexists|]. split; [vm_compute; reflexivity|]. split; [vm_compute; reflexivity|].
  intros F langs.
  pose proof (tfollow_steps ([0; 1] ++ repeat 0%nat 10 ++ repeat 1%nat 10)
    (blank.1, [t_calls F ord0 langs 30 [blank.2.1.1; blank.2.1.2] ∅ [Add 0 (B "a") 1]; t_calls F ord0 langs 30 [blank.2.1.1; blank.2.2] ∅ [Add 0 (B "b") 1]])) as H.
  destruct (tfollow _ _) as [h' ps] eqn:E. exists h'. assert (ps = [TRet []; TRet []]) as ->; [change ps with (h', ps).2; rewrite <- E; vm_compute; reflexivity|].
  split; [exact H|]. change h' with (h', [TRet []; TRet []] : list (tact (list reply))).1. rewrite <- E. vm_compute. reflexivity.
Qed.
(** ** LoadString twice at the same time: the text of one with the box of the other *)
Definition first : string := "&&a&&[[a]]1[[]]".
Definition second : string := "<&&a&&>[[a]]2[[]]".
Lemma loads_mixed : exists th t d1 d2, built th /\ is_Some (th !! t) /\ forall F langs,
  seen F langs (compile (compile th t d1).1 t d2).1 t = Ok (B "<2>") /\ seen F langs (compile (compile th t d2).1 t d1).1 t = Ok (B "1") /\
  exists th', rtc tstep (th, [t_calls F ord0 langs 30 [t] ∅ [Load 0 d1]; t_calls F ord0 langs 30 [t] ∅ [Load 0 d2]]) (th', [TRet [Loaded true]; TRet [Loaded true]]) /\
    seen F langs th' t = Ok (B "2").
Proof.
  exists (page "").1, (page "").2, (B first), (B second). split; [apply page_built|]. split; [vm_compute; by eexists|]. intros F langs. split; [vm_compute; reflexivity|]. split; [vm_compute; reflexivity|].
  pose proof (tfollow_steps (repeat 0%nat 7 ++ repeat 1%nat 20 ++ repeat 0%nat 10)
    ((page "").1, [t_calls F ord0 langs 30 [(page "").2] ∅ [Load 0 (B first)]; t_calls F ord0 langs 30 [(page "").2] ∅ [Load 0 (B second)]])) as H.
  destruct (tfollow _ _) as [h' ps] eqn:E. exists h'. assert (ps = [TRet [Loaded true]; TRet [Loaded true]]) as ->; [change ps with (h', ps).2; rewrite <- E; vm_compute; reflexivity|].
  split; [exact H|]. change h' with (h', [TRet [Loaded true]; TRet [Loaded true]] : list (tact (list reply))).1. rewrite <- E. vm_compute. reflexivity.
Qed.
(** ** What the theorems ask for *)
Definition swapping (t : loc) : list role := [Reader ∅ t None; Reload t (B "(&&a&&)"); Outside [] ∅ [New; Load 0 (B "x&&y&&[[y]]z[[]]"); Dup 0 tord0; Run 1 None]].
Lemma swap_case : exists th t, closed th /\ group th (fun x => is_Some (th !! x)) /\ (forall r, r ∈ swapping t -> fair th (fun x => is_Some (th !! x)) r) /\
  forall F langs, seen F langs th t = Ok (B "11") /\ seen F langs (compile th t (B "(&&a&&)")).1 t = Ok (B "(1)").
Proof.
  exists (page old).1, (page old).2. destruct (built_ok _ (page_built old)) as (_ & Hcl & _). split; [done|]. split; [|split].
  - split; [done|]. split; [intros x X n y HX Hn; split; [intros _; by eapply (proj1 Hcl)|intros _; by exists X]|intros x X f HX Hf; split; [intros _; by eapply (proj2 Hcl)|intros _; by exists X]].
  - intros r Hr. unfold swapping in Hr. repeat (apply elem_of_cons in Hr as [->|Hr]); [| | |by apply elem_of_nil in Hr]; cbn [fair].
    + vm_compute. by eexists.
    + split; [vm_compute; by eexists|]. split.
      * intros x X n HX Hn. apply elem_of_map_to_list in HX.
        assert (HF : Forall (fun z : loc * tmpl => Forall (fun e : bytes * loc => e.2 <> (page old).2) (map_to_list (subs_of z.2))) (map_to_list (page old).1)) by (vm_compute; repeat constructor; done).
        rewrite Forall_forall in HF. pose proof (HF (x, X) HX) as HF2. cbn in HF2. rewrite Forall_forall in HF2. apply elem_of_map_to_list in Hn. by apply (HF2 (n, (page old).2)).
      * assert (HF : Forall (fun p => p_type p <> MStart /\ p_type p <> MEnd) (first_pass (B "(&&a&&)"))) by (vm_compute; repeat constructor; done). by rewrite Forall_forall in HF.
    + split; [by intros x Hx%elem_of_nil|]. intros i tord Hd. repeat (apply elem_of_cons in Hd as [Hd|Hd]; [first [discriminate Hd|injection Hd as _ ->; apply tord0_any]|]). by apply elem_of_nil in Hd.
  - intros F langs. split; vm_compute; reflexivity.
Qed.
Definition some_data : heap := {[ 1%positive := ODs {[ B "a" := VStr (B "v") ]} ]}.
Definition any_calls : list call := [Run 0 (Some 1%positive); Load 0 (B new); Dup 0 tord0; Find 0 (B "a"); Add 0 (B "b") 1; New; Run 1 (Some 1%positive)].
Lemma no_panic_case : exists th t, closed th /\ is_Some (th !! t) /\ sound_calls some_data any_calls.
Proof.
  exists (page old).1, (page old).2. destruct (built_ok _ (page_built old)) as (_ & Hcl & _). split; [done|]. split; [vm_compute; by eexists|].
  assert (Hat : forall x o, some_data !! x = Some o -> x = 1%positive /\ o = ODs {[ B "a" := VStr (B "v") ]}) by (intros x o Hx; unfold some_data in Hx; apply lookup_singleton_Some in Hx as [<- <-]; done).
  assert (Hcol : forall c xs, ~ collection_at some_data c xs) by (intros c xs [Hc|Hc]; apply Hat in Hc as [_ Hc]; done).
  split; [|split].
  - split.
    + intros l w E. apply Hat in E as [_ E]. done.
    + intros c xs d Hc. by apply Hcol in Hc.
  - assert (Hgood : exists d, Some 1%positive = Some d /\ dataset_at some_data d /\ no_holes some_data d).
    { exists 1%positive. split; [done|]. split; [left; by eexists|]. intros c xs _ Hc. by apply Hcol in Hc. }
    intros i data Hd. repeat (apply elem_of_cons in Hd as [Hd|Hd]; [first [discriminate Hd|injection Hd as _ ->; exact Hgood]|]). by apply elem_of_nil in Hd.
  - intros i tord Hd. repeat (apply elem_of_cons in Hd as [Hd|Hd]; [first [discriminate Hd|injection Hd as _ ->; apply tord0_any]|]). by apply elem_of_nil in Hd.
Qed.
