(** * Loading a text keeps the templates made of words. *)
From Verif Require Import GoBase GoStrings GoStringsProofs Regex DatasetModel LangModel DatasetSpec 
  TemplateModel TemplateSpec TemplateProofs2 TemplateProofs3 TemplateProofs4 TemplateProofs5 TemplateProofs6 RenderSpec.
Local Open Scope Z_scope.

Definition word_params (ps : list param) : Prop := exists l, ps = map stored l /\ Forall (fun k => k <> TClose /\ forall n, k <> TOpen n) l.
Lemma word_params_forall ps : Forall (fun p => exists k, p = stored k /\ k <> TClose /\ forall n, k <> TOpen n) ps -> word_params ps.
Proof.
  induction 1 as [|p ps (k & -> & H) _ (l & -> & Hl)]; [by exists []|]. exists (k :: l). split; [done|]. by constructor.
Qed.
Lemma compiled_insert th t T : compiled th -> (forall ps, t_root T = Some ps -> word_params ps) -> compiled (<[t := T]> th).
Proof.
  intros Hc HT x X ps. destruct (decide (x = t)) as [->|Hne].
  - rewrite lookup_insert. intros [= <-]. apply HT.
  - rewrite lookup_insert_ne by done. apply Hc.
Qed.
Lemma compiled_alter th t f : compiled th -> (forall T, th !! t = Some T -> forall ps, t_root (f T) = Some ps -> t_root T = Some ps \/ word_params ps) ->
  compiled (alter f t th).
Proof.
  intros Hc HT x X ps. destruct (decide (x = t)) as [->|Hne].
  - rewrite lookup_alter. destruct (th !! t) as [T|] eqn:E; [|done]. intros [= <-] Hr. destruct (HT T eq_refl ps Hr); [by eapply Hc|done].
  - rewrite lookup_alter_ne by done. apply Hc.
Qed.
Lemma compiled_add th t name tm : compiled th -> compiled (add_template th t name tm).
Proof.
  intros Hc. unfold add_template. destruct (th !! t) as [T|]; [|done].
  apply compiled_alter; [apply compiled_alter; [done|]|]; intros; by left.
Qed.
Lemma compiled_register th t name tm : compiled th -> compiled (register th t name tm).
Proof.
  intros Hc. unfold register. case_bool_decide; [|by apply compiled_add].
  generalize (split_on "|"%char name). intros ws. revert th Hc. induction ws as [|w ws IH]; intros th Hc; [done|]. simpl. apply IH.
  destruct w; [done|]. by apply compiled_add.
Qed.

Definition marks_ok (i : nat) (starts : list nat) (c : list param) : Prop :=
  (forall j p, c !! j = Some p -> p_type p = MUnused \/ exists k, p = stored k) /\
  (forall j p, c !! j = Some p -> (j < i)%nat -> p_type p <> MEnd /\ (p_type p = MStart -> j ∈ starts)) /\
  StronglySorted (fun a b => (b < a)%nat) starts /\ Forall (fun j => (j < i)%nat) starts.
Lemma live_words (c : list param) : (forall p, p ∈ c -> p_type p = MUnused \/ exists k, p = stored k) ->
  (forall p, p ∈ c -> p_type p <> MEnd /\ p_type p <> MStart) -> word_params (filter (fun p => live p = true) c).
Proof.
  intros H1 H2. apply word_params_forall. apply Forall_forall. intros p Hp. apply elem_of_list_filter in Hp as [Hl Hp].
  unfold live in Hl. apply bool_decide_eq_true in Hl. destruct (H1 p Hp) as [Hu|[k ->]]; [done|]. exists k. split; [done|].
  destruct (H2 _ Hp) as [Ha Hb]. split; [by intros ->|]. intros n ->. done.
Qed.
Lemma step_marks i s s' : second_step i s = Some s' -> marks_ok i (s_starts s) (s_compiled s) -> compiled (s_heap s) ->
  marks_ok (S i) (s_starts s') (s_compiled s') /\ compiled (s_heap s').
Proof.
  intros Hs (M1 & M2 & M3 & M4) Hc. unfold second_step in Hs.
  assert (Hsame : (forall x, s_compiled s !! i = Some x -> p_type x <> MStart /\ p_type x <> MEnd) -> marks_ok (S i) (s_starts s) (s_compiled s)).
  { intros Hx. split; [done|]. split; [|split; [done|]].
    - intros j p Hj Hlt. destruct (decide (j = i)) as [->|]; [|apply M2; [done|lia]]. destruct (Hx p Hj). done.
    - eapply Forall_impl; [exact M4|]. simpl. lia. }
  destruct (s_compiled s !! i) as [x|] eqn:Ex.
  2:{ injection Hs as <-. split; [by apply Hsame|done]. }
  case_bool_decide as E1.
  - cbn [talloc] in Hs. unfold talloc in Hs. injection Hs as <-. cbn [s_starts s_compiled s_heap]. split; [|by apply compiled_insert].
    split; [done|]. split; [|split].
    + intros j p Hj Hlt. destruct (decide (j = i)) as [->|].
      * assert (p = x) as -> by congruence. rewrite E1. split; [done|]. intros _. apply elem_of_list_here.
      * destruct (M2 j p Hj) as [Ha Hb]; [lia|]. split; [done|]. intros Hp. apply elem_of_list_further. by apply Hb.
    + constructor; [done|]. eapply Forall_impl; [exact M4|]. done.
    + constructor; [lia|]. eapply Forall_impl; [exact M4|]. simpl. lia.
  - case_bool_decide as E2; [|injection Hs as <-; split; [apply Hsame; intros ? [= <-]; done|done]].
    destruct (s_starts s) as [|sp starts] eqn:Est; [done|]. destruct (s_uppers s) as [|up uppers]; [done|]. injection Hs as <-.
    cbn [s_starts s_compiled s_heap]. apply Forall_cons in M4 as [Hsp M4]. apply StronglySorted_inv in M3 as [M3 M3'].
    assert (Hlen : (i < length (s_compiled s))%nat) by (by eapply lookup_lt_Some).
    assert (Hlook : forall j p, (take sp (s_compiled s) ++ map unused (take (i - sp) (drop sp (s_compiled s))) ++ unused x :: drop (S i) (s_compiled s)) !! j = Some p ->
      ((sp <= j <= i)%nat /\ p_type p = MUnused) \/ ((j < sp \/ i < j)%nat /\ s_compiled s !! j = Some p)).
    { intros j p Hj. apply lookup_app_Some in Hj as [Hj|[Hge Hj]].
      - apply lookup_take_Some in Hj as [Hj Hlt]. right. split; [by left|done].
      - rewrite take_length_le in Hge, Hj by lia. apply lookup_app_Some in Hj as [Hj|[Hge2 Hj]].
        + left. rewrite list_lookup_fmap in Hj || rewrite list_lookup_map in Hj. apply fmap_Some in Hj as (q & Hq & ->).
          apply lookup_lt_Some in Hq. rewrite take_length in Hq. split; [lia|done].
        + rewrite map_length, take_length_le in Hge2, Hj by (rewrite drop_length; lia).
          destruct (j - sp - (i - sp))%nat as [|q] eqn:Eq.
          * injection Hj as <-. left. split; [lia|done].
          * right. change (drop (S i) (s_compiled s) !! q = Some p) in Hj. rewrite lookup_drop in Hj. replace (S i + q)%nat with j in Hj by lia. split; [lia|done]. }
    split.
    + split; [|split; [|split]].
      * intros j p Hj. destruct (Hlook j p Hj) as [[_ ?]|[_ Hj']]; [by left|by apply M1 in Hj'].
      * intros j p Hj Hlt. destruct (Hlook j p Hj) as [[_ Hu]|[Hr Hj']]; [by rewrite Hu|].
        destruct (M2 j p Hj') as [Ha Hb]; [lia|]. split; [done|]. intros Hp. apply Hb in Hp. apply elem_of_cons in Hp as [->|?]; [lia|done].
      * done.
      * eapply Forall_impl; [exact M4|]. simpl. lia.
    + apply compiled_register, compiled_alter; [done|]. intros T _ ps [= <-]. right.
      assert (Hin : forall p, p ∈ take (i - S sp) (drop (S sp) (s_compiled s)) -> exists j, (sp < j < i)%nat /\ s_compiled s !! j = Some p).
      { intros p Hp. apply elem_of_list_lookup in Hp as [j Hj]. apply lookup_take_Some in Hj as [Hj Hlt]. rewrite lookup_drop in Hj.
        exists (S sp + j)%nat. split; [lia|done]. }
      apply live_words.
      * intros p Hp. apply Hin in Hp as (j & _ & Hj). by eapply M1.
      * intros p Hp. apply Hin in Hp as (j & Hr & Hj). destruct (M2 j p Hj) as [Ha Hb]; [lia|]. split; [done|]. intros Hm.
        apply Hb in Hm. apply elem_of_cons in Hm as [->|Hm]; [lia|]. rewrite Forall_forall in M3'. specialize (M3' j Hm). simpl in M3'. lia.
Qed.
Lemma pass_marks k i s : marks_ok i (s_starts s) (s_compiled s) -> compiled (s_heap s) ->
  let r := second_pass k i s in compiled (s_heap r.1) /\ (r.2 = true -> marks_ok (i + k) (s_starts r.1) (s_compiled r.1)).
Proof.
  revert i s. induction k as [|k IH]; intros i s Hm Hc; cbn [second_pass].
  - split; [done|]. intros _. by rewrite Nat.add_0_r.
  - destruct (second_step i s) as [s'|] eqn:E; [|done]. destruct (step_marks i s s' E Hm Hc) as [Hm' Hc'].
    replace (i + S k)%nat with (S i + k)%nat by lia. by apply IH.
Qed.
Lemma step_length i s s' : second_step i s = Some s' -> marks_ok i (s_starts s) (s_compiled s) -> length (s_compiled s') = length (s_compiled s).
Proof.
  intros Hs (M1 & M2 & M3 & M4). unfold second_step in Hs. destruct (s_compiled s !! i) as [x|] eqn:Ex; [|by injection Hs as <-].
  apply lookup_lt_Some in Ex. case_bool_decide; [by injection Hs as <-|]. case_bool_decide; [|by injection Hs as <-].
  destruct (s_starts s) as [|sp starts]; [done|]. destruct (s_uppers s); [done|]. injection Hs as <-. cbn [s_compiled].
  apply Forall_cons in M4 as [Hsp _]. rewrite !app_length. cbn [length]. rewrite map_length, !take_length, !drop_length. lia.
Qed.
Lemma pass_length k i s : marks_ok i (s_starts s) (s_compiled s) -> compiled (s_heap s) ->
  length (s_compiled (second_pass k i s).1) = length (s_compiled s).
Proof.
  revert i s. induction k as [|k IH]; intros i s Hm Hc; cbn [second_pass]; [done|].
  destruct (second_step i s) as [s'|] eqn:E; [|done]. destruct (step_marks i s s' E Hm Hc) as [Hm' Hc'].
  rewrite IH by done. by eapply step_length.
Qed.
Lemma compile_list_compiled th t l : compiled th -> compiled (compile_list th t (map stored l)).1.
Proof.
  intros Hc. unfold compile_list.
  set (c := map stored l). assert (Hm : marks_ok 0 [] c).
  { split; [|split; [intros; lia|split; constructor]]. intros j p Hj. right. unfold c in Hj.
    change (map stored l) with (stored <$> l) in Hj. rewrite list_lookup_fmap in Hj. apply fmap_Some in Hj as (k & _ & ->). by exists k. }
  pose proof (pass_marks (length c) 0 (CState [] [] t c th) Hm Hc) as [H1 H2].
  pose proof (pass_length (length c) 0 (CState [] [] t c th) Hm Hc) as H3.
  destruct (second_pass _ _ _) as [s ok]. cbn [fst snd s_compiled] in *. destruct ok; [|done].
  destruct (s_starts s) as [|sp st] eqn:Est; [|done]. cbn [fst]. apply compiled_alter; [done|]. intros T _ ps [= <-]. right.
  destruct (H2 eq_refl) as (M1 & M2 & _). apply live_words.
  - intros p [j Hj]%elem_of_list_lookup. by eapply M1.
  - intros p [j Hj]%elem_of_list_lookup. destruct (M2 j p Hj) as [Ha Hb]; [apply lookup_lt_Some in Hj; lia|].
    split; [done|]. intros Hp. by apply Hb, elem_of_nil in Hp.
Qed.
Lemma compile_compiled th t data : compiled th -> compiled (compile th t data).1.
Proof.
  intros Hc. rewrite compile_compile_list. destruct (first_pass_reads data) as (l & _ & ->). by apply compile_list_compiled.
Qed.
Lemma new_template_compiled th data : compiled th -> compiled (new_template th data).1.
Proof.
  intros Hc. rewrite new_template_unfold. cbn zeta. set (t := fresh (dom th)).
  pose proof (compile_compiled (<[t := empty_tmpl]> th) t data (compiled_insert th t empty_tmpl Hc ltac:(done))) as H.
  destruct (compile _ t data). by destruct b.
Qed.
Lemma no_templates_compiled : compiled ∅.
Proof. intros t T ps H. by rewrite lookup_empty in H. Qed.
