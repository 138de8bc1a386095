(** * Loading a text keeps the chains of fathers finite. *)
From Verif Require Import GoBase GoStrings GoStringsProofs Regex DatasetModel LangModel DatasetSpec 
  TemplateModel TemplateSpec TemplateProofs2 TemplateProofs3 TemplateProofs4 TemplateProofs5 TemplateProofs6 RenderSpec RenderProofs4 RenderProofs6.
Local Open Scope Z_scope.

Definition father_at (th : theap) (x : loc) : option (option loc) := t_father <$> th !! x.
Definition before (t : loc) (news : list loc) (i : nat) (f : loc) : Prop := f = t \/ exists j, (j < i)%nat /\ news !! j = Some f.
Inductive stack_ok (t : loc) (news : list loc) : loc -> list loc -> Prop :=
| so_base : stack_ok t news t []
| so_push a i u us : news !! i = Some a -> before t news i u -> stack_ok t news u us -> stack_ok t news a (u :: us).
Definition lineage (th : theap) (t : loc) (news : list loc) (s : cstate) : Prop :=
  NoDup news /\ (forall x, x ∈ news -> x ∉ dom th) /\ (forall x, x ∈ news -> x ∈ dom (s_heap s)) /\ dom th ⊆ dom (s_heap s) /\
  (forall x, x ∉ news -> father_at (s_heap s) x = father_at th x) /\
  (forall i x f, news !! i = Some x -> father_at (s_heap s) x = Some (Some f) -> before t news i f) /\
  stack_ok t news (s_actual s) (s_uppers s).
Lemma before_app t news x i f : before t news i f -> before t (news ++ [x]) i f.
Proof. intros [->|(j & Hj & Hf)]; [by left|]. right. exists j. split; [done|]. by apply lookup_app_l_Some. Qed.
Lemma stack_app t news x a us : stack_ok t news a us -> stack_ok t (news ++ [x]) a us.
Proof. induction 1; econstructor; [by apply lookup_app_l_Some|by apply before_app|done]. Qed.
Lemma stack_before t news a us : stack_ok t news a us -> before t news (length news) a.
Proof. destruct 1 as [|a i u us Ha _ _]; [by left|]. right. exists i. split; [by eapply lookup_lt_Some|done]. Qed.
Lemma father_add th t name tm x : tm <> t -> father_at (add_template th t name tm) x = father_at th x \/
  (x = tm /\ father_at (add_template th t name tm) x = Some (Some t)).
Proof.
  intros Hne. unfold add_template, father_at. destruct (th !! t) as [T|] eqn:HT; [|by left].
  destruct (decide (x = t)) as [->|].
  - left. rewrite lookup_alter, lookup_alter_ne by done. by rewrite HT.
  - rewrite lookup_alter_ne by done. destruct (decide (x = tm)) as [->|]; [|left; by rewrite lookup_alter_ne].
    rewrite lookup_alter. destruct (th !! tm); [right|left]; done.
Qed.
Lemma dom_add th t name tm : dom (add_template th t name tm) = dom th.
Proof. unfold add_template. destruct (th !! t); [|done]. by rewrite !dom_alter_L. Qed.
Lemma father_register th t name tm x : tm <> t -> father_at (register th t name tm) x = father_at th x \/
  (x = tm /\ father_at (register th t name tm) x = Some (Some t)).
Proof.
  intros Hne. unfold register. case_bool_decide; [|by apply father_add].
  generalize (split_on "|"%char name). intros ws. revert th. induction ws as [|w ws IH]; intros th; [by left|]. simpl.
  destruct w as [|c w]; [apply IH|]. destruct (IH (add_template th t (c :: w) tm)) as [E|E]; [|by right]. rewrite E. by apply father_add.
Qed.
Lemma dom_register th t name tm : dom (register th t name tm) = dom th.
Proof.
  unfold register. case_bool_decide; [|by apply dom_add]. generalize (split_on "|"%char name). intros ws. revert th.
  induction ws as [|w ws IH]; intros th; [done|]. simpl. rewrite IH. destruct w; [done|]. by apply dom_add.
Qed.
Lemma father_at_alter th f a x : (forall T, t_father (f T) = t_father T) -> father_at (alter f a th) x = father_at th x.
Proof.
  intros Hf. unfold father_at. destruct (decide (x = a)) as [->|]; [|by rewrite lookup_alter_ne]. rewrite lookup_alter.
  destruct (th !! a); [|done]. simpl. by rewrite Hf.
Qed.
Lemma lineage_step th t i s s' news : t ∈ dom th -> second_step i s = Some s' -> lineage th t news s -> exists news', lineage th t news' s'.
Proof.
  intros Ht Hs (L1 & L2 & L3 & L4 & L5 & L6 & L7). unfold second_step in Hs.
  assert (Hsame : exists news', lineage th t news' s) by (exists news; done).
  destruct (s_compiled s !! i) as [x|]; [|by injection Hs as <-].
  case_bool_decide.
  - unfold talloc in Hs. injection Hs as <-. set (a := fresh (dom (s_heap s))). assert (Ha : a ∉ dom (s_heap s)) by apply is_fresh.
    exists (news ++ [a]). cbn [s_heap s_actual s_uppers lineage]. split; [|split; [|split; [|split; [|split; [|split]]]]].
    + apply NoDup_app. split; [done|]. split; [|apply NoDup_singleton]. intros y Hy ->%elem_of_list_singleton. by apply Ha, L3.
    + intros y [Hy| ->%elem_of_list_singleton]%elem_of_app; [by apply L2|]. intros Hd. by apply Ha, L4.
    + intros y Hy. cbn [s_heap]. rewrite dom_insert_L. apply elem_of_app in Hy as [Hy| ->%elem_of_list_singleton]; [apply L3 in Hy|]; set_solver.
    + cbn [s_heap]. rewrite dom_insert_L. set_solver.
    + intros y Hy. cbn [s_heap]. apply not_elem_of_app in Hy as [Hy Hy']. unfold father_at. rewrite lookup_insert_ne; [by apply L5|].
      intros <-. apply Hy'. apply elem_of_list_here.
    + cbn [s_heap]. intros j y f Hj. unfold father_at. apply lookup_app_Some in Hj as [Hj|[Hl Hj]].
      * rewrite lookup_insert_ne; [intros Hf; apply before_app; by eapply L6|]. intros <-. apply Ha, L3. by eapply elem_of_list_lookup_2.
      * destruct (j - length news)%nat; [|done]. injection Hj as <-. by rewrite lookup_insert.
    + cbn [s_actual s_uppers]. eapply (so_push _ _ _ (length news)).
      * rewrite lookup_app_r, Nat.sub_diag by lia. done.
      * apply before_app. by eapply stack_before.
      * by apply stack_app.
  - case_bool_decide; [|by injection Hs as <-]. destruct (s_starts s) as [|sp starts]; [done|].
    destruct (s_uppers s) as [|up uppers] eqn:Eu; [done|]. injection Hs as <-.
    inversion L7 as [|a j u us Ha Hb Hst]; subst.
    assert (Hne : s_actual s <> up).
    { intros E. destruct Hb as [->|(k & Hk & Hk')].
      - apply (L2 t); [|done]. rewrite <- E. by eapply elem_of_list_lookup_2.
      - rewrite <- E in Hk'. assert (k = j) by (by eapply NoDup_lookup). lia. }
    exists news. unfold lineage. cbn [s_heap s_actual s_uppers]. rewrite dom_register, dom_alter_L.
    match goal with |- context [register (alter ?f ?b ?hh) ?u ?nm ?tm] =>
      assert (Hfa : forall x, father_at (alter f b hh) x = father_at hh x) by (intros; by apply father_at_alter);
      pose proof (fun x => father_register (alter f b hh) u nm tm x Hne) as Hr; set (hn := register (alter f b hh) u nm tm) in * end.
    split; [done|]. split; [done|]. split; [done|]. split; [done|]. split; [|split; [|done]].
    + intros y Hy. destruct (Hr y) as [E|[-> _]]; [rewrite E, Hfa; by apply L5|]. destruct Hy. by eapply elem_of_list_lookup_2.
    + intros k y f Hk Hf. destruct (Hr y) as [E|[-> E]].
      * rewrite E, Hfa in Hf. by eapply L6.
      * rewrite E in Hf. injection Hf as <-. assert (k = j) as -> by (by eapply NoDup_lookup). done.
Qed.
Lemma lineage_pass th t k i s news : t ∈ dom th -> lineage th t news s -> exists news', lineage th t news' (second_pass k i s).1.
Proof.
  intros Ht. revert i s news. induction k as [|k IH]; intros i s news Hl; cbn [second_pass]; [by exists news|].
  destruct (second_step i s) as [s'|] eqn:E; [|by exists news]. destruct (lineage_step th t i s s' news Ht E Hl) as [news' Hl']. by eapply IH.
Qed.
Lemma fathers_rooted th th' t news : closed th -> rooted th -> t ∈ dom th -> NoDup news -> (forall x, x ∈ news -> x ∉ dom th) ->
  (forall x, x ∉ news -> father_at th' x = father_at th x) ->
  (forall i x f, news !! i = Some x -> father_at th' x = Some (Some f) -> before t news i f) -> rooted th'.
Proof.
  intros Hc Hr Ht Hnd Hdis Hold Hnew.
  assert (Ho : forall x, x ∈ dom th -> Acc (fun y x => exists T, th' !! x = Some T /\ t_father T = Some y) x).
  { intros x. induction (Hr x) as [x _ IH]. intros Hx. constructor. intros y (T & HT & Hf).
    assert (E : father_at th x = Some (Some y)).
    { rewrite <- Hold; [unfold father_at; rewrite HT; simpl; by rewrite Hf|]. intros Hn. by apply (Hdis x). }
    unfold father_at in E. destruct (th !! x) as [X|] eqn:EX; [|done]. injection E as E. apply IH; [by exists X|].
    destruct (proj2 Hc x X y EX E) as [Y HY]. by apply elem_of_dom_2 in HY. }
  assert (Hn : forall i x, news !! i = Some x -> Acc (fun y x => exists T, th' !! x = Some T /\ t_father T = Some y) x).
  { intros i. induction i as [i IH] using lt_wf_ind. intros x Hx. constructor. intros y (T & HT & Hf).
    destruct (Hnew i x y Hx) as [->|(j & Hj & Hy)]; [unfold father_at; rewrite HT; simpl; by rewrite Hf|by apply Ho|by eapply IH]. }
  intros x. destruct (decide (x ∈ news)) as [Hx|Hx]; [apply elem_of_list_lookup in Hx as [i Hi]; by eapply Hn|].
  destruct (decide (x ∈ dom th)) as [Hd|Hd]; [by apply Ho|]. constructor. intros y (T & HT & Hf).
  assert (E : father_at th x = Some (Some y)) by (rewrite <- Hold by done; unfold father_at; rewrite HT; simpl; by rewrite Hf).
  unfold father_at in E. destruct (th !! x) as [X|] eqn:EX; [|done]. destruct Hd. by apply elem_of_dom_2 in EX.
Qed.
Lemma compile_rooted th t data : closed th -> rooted th -> t ∈ dom th -> rooted (compile th t data).1.
Proof.
  intros Hc Hr Ht. unfold compile.
  destruct (lineage_pass th t (length (first_pass data)) 0 (CState [] [] t (first_pass data) th) [] Ht) as (news & L1 & L2 & L3 & L4 & L5 & L6 & L7).
  { split; [constructor|]. split; [by intros x Hx%elem_of_nil|]. split; [by intros x Hx%elem_of_nil|]. split; [done|]. split; [done|]. split; [done|]. constructor. }
  destruct (second_pass _ _ _) as [s ok]. cbn [fst] in *. destruct ok; [|by eapply (fathers_rooted th)].
  destruct (s_starts s); [|by eapply (fathers_rooted th)]. cbn [fst]. eapply (fathers_rooted th _ t news); try done.
  - intros x Hx. rewrite father_at_alter by done. by apply L5.
  - intros i x f Hx. rewrite father_at_alter by done. by apply L6.
Qed.
Lemma new_template_rooted th data : closed th -> rooted th -> rooted (new_template th data).1.
Proof.
  intros Hc Hr. rewrite new_template_unfold. cbn zeta. set (t := fresh (dom th)).
  assert (Ha : th !! t = None) by (apply not_elem_of_dom, is_fresh).
  assert (Hc1 : closed (<[t := empty_tmpl]> th)).
  { assert (Hk : forall y, is_Some (th !! y) -> is_Some (<[t := empty_tmpl]> th !! y)).
    { intros y Hy. rewrite lookup_insert_ne; [done|]. intros <-. rewrite Ha in Hy. by destruct Hy. }
    split.
    - intros y Y n z. destruct (decide (y = t)) as [->|]; [rewrite lookup_insert; intros [= <-]; cbn; by rewrite lookup_empty|].
      rewrite lookup_insert_ne by done. intros HY Hz. apply Hk. by eapply (proj1 Hc).
    - intros y Y z. destruct (decide (y = t)) as [->|]; [rewrite lookup_insert; by intros [= <-]|].
      rewrite lookup_insert_ne by done. intros HY Hz. apply Hk. by eapply (proj2 Hc). }
  assert (Hr1 : rooted (<[t := empty_tmpl]> th)).
  { intros x. induction (Hr x) as [x _ IH]. constructor. intros y (T & HT & Hf). destruct (decide (x = t)) as [->|].
    - rewrite lookup_insert in HT. by injection HT as <-.
    - rewrite lookup_insert_ne in HT by done. apply IH. by exists T. }
  pose proof (compile_rooted (<[t := empty_tmpl]> th) t data Hc1 Hr1) as H. destruct (compile _ t data) as [th2 ok]. cbn [fst] in *.
  destruct ok; cbn [fst]; apply H; rewrite dom_insert_L; set_solver.
Qed.
Lemma no_templates_rooted : rooted ∅.
Proof. intros t. constructor. intros y (T & HT & _). by rewrite lookup_empty in HT. Qed.
