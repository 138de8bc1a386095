(** * Version 1: Execute and its meaning; executions of loaded templates end. *)
From Verif Require Import GoBase GoStrings GoStringsProofs Regex DatasetModel LangModel DatasetSpec DatasetProofs DatasetProofs2 DatasetProofs3
  DatasetProofs5 TemplateModel TemplateSpec TemplateProofs2 TemplateProofs3 TemplateProofs4 TemplateProofs5 TemplateProofs6 RenderSpec
  RenderProofs RenderProofs2 RenderProofs3 RenderProofs5 RenderProofs6 RenderProofs7 V1Template V1TemplateSpec V1TemplateProofs2 V1TemplateProofs3 V1TemplateProofs4.
Local Open Scope Z_scope.

(** ** Meaning *)
Lemma language_ev langs h d lg : language_of langs h d lg ->
  ev (fun n => exists r, dget n h d (B "#") = Ok r /\ lg = match r with Some (VOther k) => langs k | _ => None end).
Proof.
  intros (r & Ha & Hr). apply answers_gets in Ha as [n Hn]. exists n. intros m Hm. exists r. rewrite (dget_mono n m h d _ _ Hm Hn) by done. split; [done|].
  destruct Hr as [(k & -> & ->)|[Hno ->]]; [done|]. destruct r as [v|]; [|done]. destruct v; try done. by destruct (Hno n0).
Qed.
Lemma language_get langs h d n r : dget n h d (B "#") = Ok r -> language_of langs h d (match r with Some (VOther k) => langs k | _ => None end).
Proof.
  intros H. exists r. split; [apply answers_gets; by exists n|]. destruct (other_or_not r) as [[k ->]|D]; [left; eauto|right].
  split; [done|]. destruct r as [v|]; [|done]. destruct v; try done. by destruct (D n0).
Qed.
Lemma executes1_ev F ord langs th h t data r : executes1 F ord langs th h t data r -> ev (fun n => execute1 F ord langs th h n t data = same r).
Proof.
  unfold executes1, execute1. destruct data as [d|].
  - intros (lg & Hl & Hr). apply language_ev in Hl. apply (proj1 (renders1_complete F ord th h lg)) in Hr.
    pose proof (ev_and _ _ Hl Hr) as Hb. revert Hb. apply ev_imp. intros n [(q & -> & ->) H]. cbn [obind].
    change (rev (Some [Some d])) with (Some [Some d]) in H. rewrite H. by destruct r.
  - intros Hr. apply (proj1 (renders1_complete F ord th h None)) in Hr. revert Hr. apply ev_imp. intros n H. simpl in H. rewrite H. by destruct r.
Qed.
Definition data_at (h : heap) (data : option loc) : Prop := forall d, data = Some d -> dataset_at h d.
Lemma execute1_sound F ord langs th h t data n r : compiled th -> closed th -> wf h -> is_Some (th !! t) -> data_at h data ->
  execute1 F ord langs th h n t data = same r -> executes1 F ord langs th h t data r.
Proof.
  intros Hc Hcl Hw Ht Hd. unfold executes1, execute1. destruct data as [d|].
  - pose proof (get_no_panic n h d (B "#") Hw (Hd d eq_refl)) as Hp.
    destruct (dget n h d (B "#")) as [q| |] eqn:E; [|done|by destruct r]. cbn [obind]. intros H. eexists. split; [by eapply language_get|].
    set (lg := match q with Some (VOther k) => langs k | _ => None end) in *.
    pose proof (injector1_sound F ord th h lg Hw Hcl n (Some [Some d]) t Hc) as Hs.
    assert (Hok : stack_ok h (Some [Some d])).
    { split; [by exists d, []|]. intros x Hx. apply elem_of_list_singleton in Hx. injection Hx as ->. by apply Hd. }
    specialize (Hs Hok Ht). destruct (injector1 F ord th h n lg (Some [Some d]) t) as [[st out]| |]; simpl in *; destruct r as [o|]; try done.
    injection H as ->. apply Hs.
  - intros H. pose proof (injector1_sound F ord th h None Hw Hcl n None t Hc I Ht) as Hs.
    destruct (injector1 F ord th h n None None t) as [[st out]| |]; simpl in *; destruct r as [o|]; try done. injection H as ->. apply Hs.
Qed.
Lemma execute1_meaning F ord langs th h t data r : compiled th -> closed th -> wf h -> is_Some (th !! t) -> data_at h data ->
  executes1 F ord langs th h t data r <-> exists n, execute1 F ord langs th h n t data = same r.
Proof.
  intros Hc Hcl Hw Ht Hd. split.
  - intros [n H]%executes1_ev. exists n. by apply H.
  - intros [n H]. by eapply execute1_sound.
Qed.
Lemma executes1_unique F ord langs th h t data r1 r2 :
  executes1 F ord langs th h t data r1 -> executes1 F ord langs th h t data r2 -> r1 = r2.
Proof.
  intros H1%executes1_ev H2%executes1_ev. destruct (ev_and _ _ H1 H2) as [n H]. destruct (H n (le_n n)) as [E1 E2]. rewrite E1 in E2. destruct r1, r2; simpl in *; congruence.
Qed.

(** ** Termination *)
Definition aged_rank (age : loc -> nat) (th : theap) (t : loc) : nat := (max_list (map (fun p => age p.1) (map_to_list th)) - age t)%nat.
Lemma max_list_elem (l : list nat) x : x ∈ l -> (x <= max_list l)%nat.
Proof. induction 1; simpl; lia. Qed.
Lemma aged_rank_lt age th t T n x : aged age th -> th !! t = Some T -> subs_of T !! n = Some x -> (aged_rank age th x < aged_rank age th t)%nat.
Proof.
  intros Ha HT Hn. destruct (Ha t T n x HT Hn) as [Hx Hlt]. unfold aged_rank.
  assert (age x <= max_list (map (fun p => age p.1) (map_to_list th)))%nat; [|lia].
  destruct Hx as [X HX]. apply max_list_elem, elem_of_list_fmap. exists (x, X). split; [done|]. by apply elem_of_map_to_list.
Qed.
Section Ends1.
  Context (F : golib) (ord : heap -> gmap bytes value -> list (bytes * value)) (th : theap) (h : heap) (lg : option lang) (age : loc -> nat).
  Context (Hord : order_ok ord) (Hcomp : compiled th) (Hage : aged age th) (Hw : wf h).
  Notation renders1 := (renders1 F ord h th lg).
  Definition datum (d : loc) : Prop := dataset_at h d /\ acyclic h d.
  Definition scope_ok (sc : stack) : Prop :=
    match sc with None => True | Some xs => (forall d, Some d ∈ xs -> datum d) /\ exists ys d, xs = ys ++ [Some d] end.
  Lemma found1_exists sc key : (forall d, Some d ∈ sc -> datum d) -> exists r, found1 h sc key r.
  Proof.
    induction sc as [|[d|] sc IH]; intros Hd; [eexists; constructor| |eexists; constructor].
    destruct (every_key_has_segments key) as (s & segs & Hf & ->).
    destruct (at_path_total h d (s :: segs)) as [q Hq]; [done| |done|]; [apply Hd; by left|].
    assert (Ha : answers h d (s ++ concat (map (cons ">"%char) segs)) q) by (exists s, segs; split; [by split|done]).
    destruct q as [v|]; [eexists; by apply f1_here|].
    destruct IH as [r Hr]; [intros x Hx; apply Hd; by right|]. exists r. by apply f1_outer.
  Qed.
  Lemma found1_reach sc key x : found1 h sc key (Some (Some (VRef x))) -> exists d, Some d ∈ sc /\ reach h d x.
  Proof.
    intros H. remember (Some (Some (VRef x))) as r eqn:E. induction H as [| |d sc key v H|d sc key r H H1 IH]; [done|done| |].
    - injection E as ->. exists d. split; [apply elem_of_list_here|]. destruct H as (s & segs & _ & Hp). by eapply path_reach.
    - destruct (IH E) as (d' & Hd & Hr). exists d'. split; [by apply elem_of_list_further|done].
  Qed.
  Lemma found1_acyclic xs key x : scope_ok (Some xs) -> found1 h xs key (Some (Some (VRef x))) -> acyclic h x.
  Proof. intros [Hd _] (d & Hin & Hr)%found1_reach. eapply acyclic_reach; [|exact Hr]. by apply Hd. Qed.
  Lemma found1_prints xs key v : scope_ok (Some xs) -> found1 h xs key (Some (Some v)) -> exists s, prints F ord h v s.
  Proof. intros Hd Hf. apply prints_exists; [done|]. intros l ->. by eapply found1_acyclic. Qed.
  Lemma text1_exists xs key : scope_ok (Some xs) -> exists r, text1 F ord h xs key r.
  Proof.
    intros Hd. destruct (found1_exists xs key (proj1 Hd)) as [[[v|]|] Hf]; [|exists (Some []); by apply t1_missing|exists None; by apply t1_panic].
    destruct (nil_or_not v) as [->|D]; [exists (Some []); by apply t1_nil|].
    destruct (found1_prints xs key v Hd Hf) as [s Hs]. exists (Some s). by eapply t1_value.
  Qed.
  Lemma push_ok xs e : scope_ok (Some xs) -> (forall d, e = Some d -> datum d) -> scope_ok (Some (e :: xs)).
  Proof.
    intros [Hd (ys & d & ->)] He. split; [|by exists (e :: ys), d]. intros x [Hx|Hx]%elem_of_cons; [by apply He|by apply Hd].
  Qed.
  (** All sub templates end. *)
  Definition subs_end (t : loc) : Prop := forall n x sc, has th t n (Some x) -> scope_ok sc -> exists r, renders1 sc x r.
  Lemma has_exists t n : is_Some (th !! t) -> exists q, has th t n q.
  Proof. intros [T HT]. by exists (subs_of T !! n), T. Qed.
  Lemma choose1_exists t ns : is_Some (th !! t) -> exists q, choose1 th t ns q.
  Proof. intros Ht. destruct (names1_some th t ns Ht) as (q & _ & Hq). by exists q. Qed.
  Lemma choose1_has t ns x : choose1 th t ns (Some x) -> exists n, has th t n (Some x).
  Proof. intros H. remember (Some x) as r eqn:E. induction H as [|n ns y H|n ns r H _ IH]; [done| |by apply IH]. injection E as ->. by exists n. Qed.
  Lemma or_else_ends t ns q b x sc : subs_end t -> choose1 th t ns q -> has th t b (Some x) -> scope_ok sc -> exists r, renders1 sc (or_else q x) r.
  Proof. intros Ht Hq Hx Hsc. destruct q as [y|]; [|by eapply Ht]. apply choose1_has in Hq as [n Hn]. by eapply Ht. Qed.
  Lemma has_or_else_ends t n q b x sc : subs_end t -> has th t n q -> has th t b (Some x) -> scope_ok sc -> exists r, renders1 sc (or_else q x) r.
  Proof. intros Ht Hq Hx Hsc. destruct q as [y|]; by eapply Ht. Qed.
  Lemma loops1_exist xs t b x i n es : subs_end t -> is_Some (th !! t) -> has th t b (Some x) -> scope_ok (Some xs) ->
    (forall e d, e ∈ es -> e = Some d -> datum d) -> exists r, loops1 F ord h th lg xs t b x i n es r.
  Proof.
    intros Hs Ht Hx Hsc. revert i. induction es as [|e es IH]; intros i He; [eexists; constructor|].
    destruct (choose1_exists t (element_names b i n) Ht) as [q Hq].
    destruct (or_else_ends t _ q b x (Some (e :: xs)) Hs Hq Hx) as [[o1|] Hr]; [apply push_ok; [done|]; intros d Hd; eapply He; [by left|done]| |exists None; by eapply l1_panic].
    destruct (IH (S i)) as [[o2|] H2]; [intros e' d Hin; apply He; by right| |].
    - eexists. by eapply l1_next.
    - eexists. by eapply l1_later.
  Qed.
  Lemma element1_exists sc t k : is_Some (th !! t) -> k <> TClose -> (forall nm, k <> TOpen nm) -> subs_end t -> scope_ok sc ->
    exists r, one1 F ord h th lg sc t k r.
  Proof.
    intros Ht Hc Ho Hs Hsc. destruct k as [s|s|s|s|s|s|s|s|s|]; try done.
    - eexists; constructor.
    - eexists; constructor.
    - destruct lg as [g|] eqn:El.
      + destruct (l_entries g !! s) as [v|] eqn:Ev; [eexists; by eapply o1_lang|exists (Some []); apply o1_lang_missing; by intros g' [= <-]].
      + eexists. by apply o1_lang_missing.
    - (* reference *) destruct (split_on ":"%char s) as [|a ws] eqn:E; [by apply split_on_nonempty in E|]. apply separated_split in E.
      destruct (decide (length ws = 2%nat)) as [L|L].
      + destruct ws as [|f [|p [|]]]; try done. destruct sc as [xs|]; [|exists None; by eapply o1_select_nodata].
        destruct (text1_exists xs f Hsc) as [[v|] Hv]; [|exists None; by eapply o1_select_panic].
        destruct (choose1_exists t [p ++ v; p] Ht) as [[x|] Hx].
        * destruct (choose1_has _ _ _ Hx) as (n & Hn). destruct (Hs n x (Some xs) Hn Hsc) as [r Hr].
          exists r. eapply o1_select; [done..|by constructor].
        * exists (Some []). eapply o1_select; [done..|constructor].
      + destruct (has_exists t a Ht) as [[x|] Hx]; [|exists (Some []); by eapply o1_ref_unknown].
        destruct (decide (length ws = 1%nat)) as [L1|L1].
        * destruct ws as [|f [|]]; try done. destruct sc as [xs|]; [|exists None; by eapply o1_narrow_nodata].
          destruct (found1_exists xs f (proj1 Hsc)) as [[v|] Hr]; [|exists None; by eapply o1_narrow_panic].
          destruct (v ≫= as_dataset h) as [d|] eqn:Ed.
          -- destruct v as [v|]; [|done]. simpl in Ed. apply as_dataset_some in Ed as [-> Hds].
             destruct (Hs a x (Some (Some d :: xs)) Hx) as [r Hr'].
             { apply push_ok; [done|]. intros d' [= <-]. split; [done|]. by eapply found1_acyclic. }
             exists r. by eapply o1_narrow.
          -- destruct (Hs a x (Some xs) Hx Hsc) as [r Hr']. exists r. eapply o1_keep; [done..| |done]. by apply not_dataset.
        * destruct (Hs a x sc Hx Hsc) as [r Hr']. exists r. by eapply o1_ref.
    - (* range *) destruct (two_ids s) as [d b] eqn:E. apply two_ids_spec in E.
      destruct (has_exists t b Ht) as [[x|] Hx]; [|exists (Some []); by eapply o1_range_unknown].
      destruct sc as [xs|]; [|exists (Some []); by eapply o1_range_nodata].
      destruct (found1_exists xs d (proj1 Hsc)) as [[[v|]|] Hr]; [| |exists None; by eapply o1_range_panic].
      + destruct (as_collection h v) as [c|] eqn:Ec; [|exists None; eapply o1_range_other; [done..|]; by apply as_collection_none].
        apply as_collection_some in Ec as (-> & cs & Hcs).
        destruct (loops1_exist xs t b x 0 (length cs) cs Hs Ht Hx Hsc) as [r Hl].
        { intros e d0 He ->. split; [by eapply (proj2 Hw)|]. eapply acyclic_reach; [by eapply found1_acyclic|]. apply rtc_once. by eapply child_coll. }
        exists r. by eapply o1_range.
      + destruct (has_exists t (dotted b (B "none")) Ht) as [q Hq].
        destruct (has_or_else_ends t _ q b x (Some xs) Hs Hq Hx Hsc) as [r Hr']. exists r. by eapply o1_range_none.
    - (* condition *) destruct (two_ids s) as [d b] eqn:E. apply two_ids_spec in E.
      destruct (has_exists t b Ht) as [p Hp]. destruct sc as [xs|]; [|exists (Some []); by eapply o1_cond_nodata].
      destruct (found1_exists xs d (proj1 Hsc)) as [[v|] Hr]; [|exists None; by eapply o1_cond_panic].
      destruct p as [x|]; [|exists (Some []); by eapply o1_cond_unknown].
      destruct v as [v|]; [|exists (Some []); eapply o1_cond_missing; eauto].
      destruct (nil_or_not v) as [->|D]; [exists (Some []); eapply o1_cond_missing; eauto|].
      destruct (as_dataset h v) as [l|] eqn:Ed.
      + apply as_dataset_some in Ed as [-> Hds]. exists (Some []). by eapply o1_cond_dataset.
      + assert (Hnd : forall l, v = VRef l -> ~ dataset_at h l) by (by apply as_dataset_none).
        destruct (found1_prints xs d v Hsc Hr) as [w Hv]. destruct (decide (w = [])) as [->|Hne]; [exists (Some []); by eapply o1_cond_empty|].
        destruct (has_exists t (dotted b w) Ht) as [q Hq]. destruct (has_or_else_ends t _ q b x (Some xs) Hs Hq Hp Hsc) as [r Hr'].
        exists r. by eapply o1_cond.
    - (* dump *) destruct sc as [xs|]; [|eexists; apply o1_dump_nodata].
      destruct (decide (s = B "dump" \/ s = B "list")) as [He|He]; [|exists (Some []); apply o1_dump_other; tauto].
      destruct Hsc as [Hd (ys & d & ->)]. destruct (Hd d) as [H1 H2]; [apply elem_of_app; right; by left|].
      destruct (dumps_exists F ord Hord h d) as [o Ho']; [by apply wf_chain|done|]. exists (Some o). by apply o1_dump.
    - destruct sc as [xs|]; [|eexists; apply o1_var_nodata]. destruct (text1_exists xs s Hsc) as [r Hr]. exists r. by apply o1_var.
    - by destruct (Ho s).
  Qed.
  Lemma all1_exist sc t l : is_Some (th !! t) -> Forall (fun k => k <> TClose /\ forall nm, k <> TOpen nm) l -> subs_end t ->
    scope_ok sc -> exists r, all1 F ord h th lg sc t l r.
  Proof.
    intros Ht Hl Hs Hsc. induction Hl as [|k l [Hc Ho] _ [r IH]]; [eexists; constructor|].
    destruct (element1_exists sc t k Ht Hc Ho Hs Hsc) as [[o1|] H1]; [|exists None; by eapply a1_panic].
    destruct r as [o2|]; [exists (Some (o1 ++ o2)); by eapply a1_cons|exists None; by eapply a1_later].
  Qed.
  Lemma aged_ends t sc : is_Some (th !! t) -> scope_ok sc -> exists r, renders1 sc t r.
  Proof.
    remember (aged_rank age th t) as m eqn:Em. revert t sc Em. induction m as [m IH] using lt_wf_ind. intros t sc -> [T HT] Hsc.
    destruct (t_root T) as [ps|] eqn:Hr; [|eexists; by eapply r1_not_compiled].
    destruct (Hcomp t T ps HT Hr) as (l & -> & Hl).
    destruct (all1_exist sc t l) as [r H]; [by exists T|done| |done|].
    - intros n x sc0 (T' & HT' & Hn) Hs. rewrite HT in HT'. injection HT' as <-. symmetry in Hn.
      eapply (IH (aged_rank age th x)); [by eapply aged_rank_lt|done| |done]. by destruct (Hage t T n x HT Hn).
    - exists r. by eapply r1_root.
  Qed.
End Ends1.
Lemma built1_closed th : built1 th -> compiled th /\ closed th.
Proof.
  intros (Hf & Hc & age & Ha)%built1_ok. split; [done|]. split.
  - intros t T n x HT Hn. by destruct (Ha t T n x HT Hn).
  - intros t T f HT Hfa. by rewrite (Hf t T HT) in Hfa.
Qed.
Lemma execute1_ends F ord langs th h t data : order_ok ord -> built1 th -> is_Some (th !! t) -> wf h ->
  (forall d, data = Some d -> dataset_at h d /\ acyclic h d) -> exists r, executes1 F ord langs th h t data r.
Proof.
  intros Ho (Hf & Hc & age & Ha)%built1_ok Ht Hw Hd. unfold executes1. destruct data as [d|].
  - destruct (Hd d eq_refl) as [Hd1 Hd2].
    destruct (found1_exists h Hw [Some d] (B "#")) as [r Hr].
    { intros x Hx. apply elem_of_list_singleton in Hx. by injection Hx as ->. }
    assert (Ha' : exists r, answers h d (B "#") r).
    { inversion Hr as [| |? ? ? v Hv|? ? ? r' Hv _]; subst; eauto. }
    destruct Ha' as [q Hq]. assert (L : exists lg, language_of langs h d lg).
    { destruct (other_or_not q) as [[k ->]|D]; [exists (langs k), (Some (VOther k)); split; [done|]; left; eauto|exists None, q; split; [done|]; by right]. }
    destruct L as [lg Hl]. destruct (aged_ends F ord th h lg age Ho Hc Ha Hw t (Some [Some d]) Ht) as [r' Hr']; [|by exists r', lg].
    split; [|by exists [], d]. intros x Hx. apply elem_of_list_singleton in Hx. by injection Hx as ->.
  - destruct (aged_ends F ord th h None age Ho Hc Ha Hw t None Ht I) as [r Hr]. by exists r.
Qed.
