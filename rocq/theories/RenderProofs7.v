(** * Executions that end, and executions that do not. *)
From Verif Require Import GoBase GoStrings GoStringsProofs Regex DatasetModel LangModel DatasetSpec DatasetProofs DatasetProofs2 DatasetProofs3
  DatasetProofs5 TemplateModel TemplateSpec TemplateProofs2 TemplateProofs3 TemplateProofs4 TemplateProofs5 TemplateProofs6
  RenderSpec RenderProofs RenderProofs2 RenderProofs3 RenderProofs4 RenderProofs5 RenderProofs6.
Local Open Scope Z_scope.

Lemma nil_or_not (v : value) : v = VNil \/ v <> VNil.
Proof. destruct v; (left; reflexivity) || (right; discriminate). Qed.
Lemma other_or_not (r : option value) : (exists k, r = Some (VOther k)) \/ forall k, r <> Some (VOther k).
Proof. destruct r as [v|]; [|by right]. destruct v; try (by right). left. eauto. Qed.
Lemma ref_or_not (v : value) : (exists l, v = VRef l) \/ forall l, v <> VRef l.
Proof. destruct v; eauto. Qed.
(** ** Printing ends *)
Section Show.
  Context (F : golib) (ord : heap -> gmap bytes value -> list (bytes * value)) (Hord : order_ok ord).
  Definition prints_value (h : heap) (go : bool) (v : value) : Prop := ev (fun n => exists s, show_value F (show F ord n h) go v = Ok s).
  Lemma entries_end h go l : (forall k v, (k, v) ∈ l -> prints_value h go v) ->
    ev (fun n => exists s, show_entries (show_value F (show F ord n h) go) l = Ok s).
  Proof.
    induction l as [|[k v] l IH]; intros Hl; [apply ev_all; by exists []|].
    assert (H1 : prints_value h go v) by (apply (Hl k), elem_of_list_here).
    assert (H2 := IH ltac:(intros k' v' Hin; apply (Hl k'); by apply elem_of_list_further)).
    pose proof (ev_and _ _ H1 H2) as H. revert H. apply ev_imp. intros n [[s E1] [ss E2]]. cbn [show_entries]. rewrite E1. cbn [obind]. rewrite E2. by eexists.
  Qed.
  Lemma elements_end h go i xs : (forall x, x ∈ xs -> prints_value h go (match x with Some l => VRef l | None => VNil end)) ->
    ev (fun n => exists s, show_elements (show_value F (show F ord n h) go) i xs = Ok s).
  Proof.
    revert i. induction xs as [|x xs IH]; intros i Hl; [apply ev_all; by exists []|].
    assert (H1 := Hl x (elem_of_list_here _ _)).
    assert (H2 := IH (i + 1) ltac:(intros y Hy; apply Hl; by apply elem_of_list_further)).
    pose proof (ev_and _ _ H1 H2) as H. revert H. apply ev_imp. intros n [[s E1] [ss E2]]. cbn [show_elements]. rewrite E1. cbn [obind]. rewrite E2. by eexists.
  Qed.
  Lemma value_ends h go v : (forall l, v = VRef l -> ev (fun n => show F ord n h go l <> NoFuel)) -> prints_value h go v.
  Proof.
    intros Hl. unfold prints_value. destruct (ref_or_not v) as [[l ->]|D]; [|apply ev_all; intros n; destruct v; try (by eexists); by destruct (D l)].
    specialize (Hl l eq_refl). revert Hl. apply ev_imp. intros n Hn. cbn [show_value]. destruct (show F ord n h go l); [by eexists|by eexists|done].
  Qed.
  Lemma ev_succ (P : nat -> Prop) : ev (fun n => P (S n)) -> ev P.
  Proof. intros [n0 H]. exists (S n0). intros n Hn. destruct n as [|n]; [lia|]. apply H. lia. Qed.
  Lemma show_ends h l go : acyclic h l -> ev (fun n => show F ord n h go l <> NoFuel).
  Proof.
    intros Ha. revert go. induction Ha as [l _ IH]; intros go. apply ev_succ. cbn [show].
    destruct (h !! l) as [[m|[d|]|xs|xs]|] eqn:E.
    - assert (H : ev (fun n => exists s, show_entries (show_value F (show F ord n h) go) (ord h m) = Ok s)).
      { apply entries_end. intros k v Hin. apply value_ends. intros x ->. apply IH. eapply child_ds; [done|].
        apply elem_of_map_to_list. by rewrite <- (Hord h m). }
      revert H. apply ev_imp. intros n [s ->]. done.
    - apply IH. by apply child_ts.
    - apply ev_all. done.
    - assert (H : ev (fun n => exists s, show_elements (show_value F (show F ord n h) false) 0 xs = Ok s)).
      { apply elements_end. intros [x|] Hin; apply value_ends; [|done]. intros y [= <-]. apply IH. eapply child_coll; [by left|done]. }
      revert H. apply ev_imp. intros n [s ->]. done.
    - assert (H : ev (fun n => exists s, show_elements (show_value F (show F ord n h) false) 0 xs = Ok s)).
      { apply elements_end. intros [x|] Hin; apply value_ends; [|done]. intros y [= <-]. apply IH. eapply child_coll; [by right|done]. }
      revert H. apply ev_imp. intros n [s ->]. done.
    - apply ev_all. done.
  Qed.
  Lemma show_chain_ok n h go l : chain h l -> show F ord n h go l <> Panic.
  Proof.
    intros Hc. revert n. induction Hc as [l m E|l d E _ IH]; intros [|n]; cbn [show]; try done; rewrite E; [|done].
    assert (Hs : forall es, show_entries (show_value F (show F ord n h) go) es <> Panic).
    { induction es as [|[k v] es IHe]; cbn [show_entries]; [done|].
      pose proof (show_value_no_panic F (show F ord n h) go v). destruct (show_value _ _ _ v); cbn [obind]; try done.
      destruct (show_entries _ es); done. }
    specialize (Hs (ord h m)). by destruct (show_entries _ _).
  Qed.
  Lemma dumps_exists h d : chain h d -> acyclic h d -> exists s, dumps F ord h d s.
  Proof.
    intros Hc Ha. destruct (show_ends h d true Ha) as [n Hn]. specialize (Hn n (le_n n)). pose proof (show_chain_ok n h true d Hc).
    destruct (show F ord n h true d) as [s| |] eqn:E; try done. exists s. by exists n.
  Qed.
  Lemma prints_exists h v : (forall l, v = VRef l -> acyclic h l) -> exists s, prints F ord h v s.
  Proof.
    intros Ha. destruct (value_ends h false v) as [n Hn]; [intros l ->; by apply show_ends, Ha|].
    destruct (Hn n (le_n n)) as [s Hs]. exists s. by exists n.
  Qed.
End Show.

(** ** Data that stay sound *)
Definition sound (h : heap) (d : loc) : Prop := dataset_at h d /\ acyclic h d /\ complete h d.
Lemma counted_child h h' x y : counted h h' -> child h' x y -> child h x y.
Proof.
  intros Hc Hch. inversion Hch as [l m k d E Ek|l d E|l xs d E Ei]; subst.
  - destruct (Hc x) as [Ex|(m0 & c & xs & i & d & Hx & _ & _ & _ & Ex)].
    + rewrite Ex in E. by eapply child_ds.
    + rewrite Ex in E. injection E as <-. destruct (decide (k = B ".counter")) as [->|Hne]; [by rewrite lookup_insert in Ek|].
      rewrite lookup_insert_ne in Ek by done. by eapply child_ds.
  - pose proof (counted_kind h h' x Hc) as Hk. destruct (h !! x) as [[m| | |]|] eqn:Ex; try congruence.
    + destruct Hk as [m' Hk]. congruence.
    + apply child_ts. congruence.
  - eapply child_coll; [|done]. by apply (counted_collection h h').
Qed.
Lemma counted_reach h h' x y : counted h h' -> reach h' x y -> reach h x y.
Proof. intros Hc. induction 1 as [|x y z H _ IH]; [done|]. eapply rtc_l; [by eapply counted_child|done]. Qed.
Lemma counted_acyclic h h' x : counted h h' -> acyclic h x -> acyclic h' x.
Proof. intros Hc. induction 1 as [x _ IH]. constructor. intros y Hy. apply IH. by eapply counted_child. Qed.
Lemma counted_complete h h' x : counted h h' -> complete h x -> complete h' x.
Proof.
  intros Hc H y Hy. destruct (H y (counted_reach h h' x y Hc Hy)) as ([o Ho] & Ht & Hn). pose proof (counted_kind h h' y Hc) as Hk.
  split; [|split].
  - rewrite Ho in Hk. destruct o; eauto. destruct Hk as [m' Hk]. by eexists.
  - rewrite Ho in Hk. destruct o; rewrite ?Hk; try congruence. destruct Hk as [m' Hk]. by rewrite Hk.
  - intros xs Hx. apply Hn. by apply (counted_collection h h').
Qed.
Lemma counted_sound h h' d : counted h h' -> sound h d -> sound h' d.
Proof.
  intros Hc (H1 & H2 & H3). split; [by apply (counted_dataset h h')|]. split; [by eapply counted_acyclic|by eapply counted_complete].
Qed.
Lemma counted_chain h h' d : counted h h' -> chain h d -> chain h' d.
Proof.
  intros Hc. induction 1 as [l m E|l d E _ IH]; pose proof (counted_kind h h' l Hc) as Hk; rewrite E in Hk.
  - destruct Hk as [m' Hk]. by eapply chain_ds.
  - by eapply chain_ts.
Qed.
Lemma counted_wf h h' : counted h h' -> wf h -> wf h'.
Proof.
  intros Hc [H1 H2]. split.
  - intros l w E. apply (counted_chain h h'); [done|]. pose proof (counted_kind h h' l Hc) as Hk.
    destruct (h !! l) as [[m| | |]|] eqn:Ex; try congruence; [|by eapply H1]. destruct Hk as [m' Hk]. congruence.
  - intros c xs d Hx Hd. apply (counted_dataset h h'); [done|]. eapply H2; [|done]. by apply (counted_collection h h').
Qed.
Lemma path_reach h l p x : at_path h l p (Some (VRef x)) -> reach h l x.
Proof.
  intros H. remember (Some (VRef x)) as r eqn:E. induction H as [l d p r H Hp IH|l m k H|l m k p H Hk Hp|l m k d p r H Hk Hd Hp Hr IH|
    l m k c xs s p H Hk Hc Hno|l m k c xs s i d H Hk Hc Hs Hi|l m k c xs s i d p r H Hk Hc Hs Hi Hp Hr IH|l m k p v H Hk Hv Hp]; subst; try done.
  - eapply rtc_l; [by apply child_ts|by apply IH].
  - apply rtc_once. by eapply child_ds.
  - eapply rtc_l; [by eapply child_ds|by apply IH].
  - injection E as ->. eapply rtc_l; [by eapply child_ds|]. apply rtc_once. eapply child_coll; [done|]. by eapply elem_of_list_lookup_2.
  - eapply rtc_l; [by eapply child_ds|]. eapply rtc_l; [|by apply IH]. eapply child_coll; [done|]. by eapply elem_of_list_lookup_2.
  - apply rtc_once. by eapply child_ds.
Qed.
Lemma found_reach h sc key x : found h sc key (Some (VRef x)) -> exists d, d ∈ sc /\ reach h d x.
Proof.
  intros H. remember (Some (VRef x)) as r eqn:E. induction H as [|d sc key v H|d sc key r H H1 IH]; [done| |].
  - subst. injection E as ->. exists d. split; [apply elem_of_list_here|]. destruct H as (s & segs & _ & Hp). by eapply path_reach.
  - destruct (IH E) as (d' & Hd & Hr). exists d'. split; [by apply elem_of_list_further|done].
Qed.
Lemma found_exists h sc key : wf h -> Forall (dataset_at h) sc -> exists r, found h sc key r.
Proof.
  intros Hw. induction 1 as [|d sc Hd _ [r IH]]; [exists None; constructor|].
  destruct (every_key_has_segments key) as (s & segs & Hf & ->).
  destruct (at_path_total h d (s :: segs)) as [q Hq]; [done..|].
  assert (Ha : answers h d (s ++ concat (map (cons ">"%char) segs)) q) by (exists s, segs; split; [by split|done]).
  destruct q as [v|]; [exists (Some v); by apply fd_here|exists r; by apply fd_outer].
Qed.
Lemma acyclic_reach h x y : acyclic h x -> reach h x y -> acyclic h y.
Proof. intros Ha Hr. induction Hr as [|x y z H _ IH]; [done|]. apply IH. by apply (Acc_inv Ha). Qed.
Lemma complete_reach h x y : complete h x -> reach h x y -> complete h y.
Proof. intros Ha Hr z Hz. apply Ha. by etrans. Qed.

(** ** Ranked templates *)
Section Ranked.
  Context (F : golib) (ord : heap -> gmap bytes value -> list (bytes * value)) (th : theap) (lg : option lang) (rank : loc -> nat).
  Context (Hord : order_ok ord) (Hcomp : compiled th) (Hclosed : closed th) (Hroot : rooted th) (Hrank : ranked th rank).
  Notation renders := (renders F ord th lg).
  Notation renders_one := (renders_one F ord th lg).
  Lemma visible_exists t name : is_Some (th !! t) -> exists r, visible th t name r.
  Proof.
    induction (Hroot t) as [t _ IH]. intros [T HT]. destruct (subs_of T !! name) as [x|] eqn:E; [exists (Some x); by eapply vis_here|].
    destruct (t_father T) as [f|] eqn:Ef; [|exists None; by eapply vis_none].
    destruct (IH f) as [r Hr]; [by exists T|by eapply (proj2 Hclosed)|]. exists r. by eapply vis_up.
  Qed.
  Lemma choose_exists t ns : is_Some (th !! t) -> exists r, choose th t ns r.
  Proof.
    intros Ht. induction ns as [|n ns [r IH]]; [exists None; constructor|]. destruct (visible_exists t n Ht) as [[x|] Hx].
    - exists (Some x). by constructor.
    - exists r. by apply ch_next.
  Qed.
  Definition data_ok (h : heap) (sc : list loc) : Prop := wf h /\ sc <> [] /\ Forall (sound h) sc.
  Lemma data_ok_counted h h' sc : counted h h' -> data_ok h sc -> data_ok h' sc.
  Proof.
    intros Hc (H1 & H2 & H3). split; [by eapply counted_wf|]. split; [done|]. eapply Forall_impl; [exact H3|]. intros d. by apply counted_sound.
  Qed.
  Lemma data_ok_found h sc key : data_ok h sc -> exists r, found h sc key r.
  Proof. intros (H1 & _ & H3). apply found_exists; [done|]. eapply Forall_impl; [exact H3|]. by intros d (? & _). Qed.
  Lemma data_ok_value h sc key x : data_ok h sc -> found h sc key (Some (VRef x)) -> acyclic h x /\ complete h x.
  Proof.
    intros (H1 & _ & H3) Hf. apply found_reach in Hf as (d & Hd & Hr). rewrite Forall_forall in H3. destruct (H3 d Hd) as (_ & Ha & Hc).
    split; [by eapply acyclic_reach|by eapply complete_reach].
  Qed.
  Lemma data_ok_push h sc d : data_ok h sc -> sound h d -> data_ok h (d :: sc).
  Proof. intros (H1 & _ & H3) Hd. split; [done|]. split; [done|]. by constructor. Qed.
  Lemma found_prints h sc key v : data_ok h sc -> found h sc key (Some v) -> exists s, prints F ord h v s.
  Proof. intros Hd Hf. apply prints_exists; [done|]. intros l ->. by eapply data_ok_value. Qed.
  Lemma field_text_exists h sc key : data_ok h sc -> exists s, field_text F ord h sc key s.
  Proof.
    intros Hd. destruct (data_ok_found h sc key Hd) as [[v|] Hf]; [|exists []; by apply ft_missing].
    destruct (nil_or_not v) as [->|D]; [exists []; by apply ft_nil|].
    destruct (found_prints h sc key v Hd Hf) as [s Hs]. exists s. by eapply ft_value.
  Qed.
  (** All callees end. *)
  Definition callees_end (t : loc) (k : token) : Prop :=
    forall n x h sc, may_call k n -> visible th t n (Some x) -> data_ok h sc -> exists h' out, renders h sc x h' out.
  Lemma callee_or t k n m x q h sc : callees_end t k -> may_call k n -> visible th t n (Some x) -> may_call k m -> visible th t m q ->
    data_ok h sc -> exists h' out, renders h sc (or_else q x) h' out.
  Proof. intros Hc H1 H2 H3 H4 Hd. destruct q as [y|]; [by eapply (Hc m)|by eapply (Hc n)]. Qed.
  Lemma element_name_dotted b i n m : m ∈ element_names b i n -> exists w, m = dotted b w.
  Proof.
    unfold element_names. rewrite !elem_of_app. intros [H|[H|[H|H]]].
    - apply elem_of_list_singleton in H. eauto.
    - case_decide; [apply elem_of_list_singleton in H; eauto|by apply elem_of_nil in H].
    - case_decide; [apply elem_of_list_singleton in H; eauto|by apply elem_of_nil in H].
    - destruct (Nat.even i); [apply elem_of_list_singleton in H; eauto|by apply elem_of_nil in H].
  Qed.
  Lemma loops_exist t s d b x n ds i h sc : is_Some (th !! t) -> callees_end t (TRange s) -> data_template s d b -> visible th t b (Some x) ->
    data_ok h sc -> (forall c xs, collection_at h c xs -> drop i xs = ds -> True) ->
    (exists c cs, collection_at h c cs /\ drop i cs = ds) ->
    Forall (fun e => exists d, e = Some d /\ sound h d) ds -> exists h' out, loops F ord th lg h sc t b x i n ds h' out.
  Proof.
    intros Ht Hcall Hs Hv Hd _ Hcs Hds. revert i h Hd Hcs Hds. induction ds as [|e ds IH]; intros i h Hd (c & cs & Hc & Hdr) Hds; [eexists _, _; constructor|].
    apply Forall_cons in Hds as [(d0 & -> & Hd0) Hds].
    destruct (choose_exists t (element_names b i n) Ht) as [q Hq].
    assert (Hch : chain h d0) by (apply wf_chain; [apply Hd|apply Hd0]). apply inside_chain in Hch as (x0 & m & Hin).
    set (h1 := <[x0 := ODs (<[B ".counter" := VInt KInt (Z.of_nat i + 1)]> m)]> h).
    assert (Hcnt : counts h d0 i h1) by (by exists x0, m).
    assert (Hi : cs !! i = Some (Some d0)) by (replace i with (i + 0)%nat by lia; rewrite <- lookup_drop, Hdr; done).
    assert (C1 : counted h h1) by (by eapply counts_counted).
    destruct (fun H => H : exists h2 o1, renders h1 (d0 :: sc) (or_else q x) h2 o1) as (h2 & o1 & Hr).
    { assert (Hd1 : data_ok h1 (d0 :: sc)) by (apply data_ok_push; [by eapply data_ok_counted|by eapply counted_sound]).
      destruct q as [y|].
      - apply choose_visible in Hq as (m' & Hm' & Hvy). apply element_name_dotted in Hm' as [w ->].
        eapply (Hcall (dotted b w) y); [by eapply mc_range_choice|done|done].
      - eapply (Hcall b x); [by eapply mc_range|done|done]. }
    assert (C2 : counted h h2) by (eapply counted_trans; [exact C1|]; exact (proj1 (renders_counted _ _ _ _) _ _ _ _ _ Hr)).
    destruct (IH (S i) h2) as (h3 & o2 & Hl).
    - by eapply data_ok_counted.
    - exists c, cs. split; [by apply (counted_collection h h2)|]. rewrite (drop_S cs (Some d0) i Hi) in Hdr. by injection Hdr.
    - eapply Forall_impl; [exact Hds|]. intros e (d1 & -> & Hd1). exists d1. split; [done|]. by eapply counted_sound.
    - eexists h3, (o1 ++ o2). by eapply lp_next.
  Qed.
  Lemma element_exists h sc t k : is_Some (th !! t) -> k <> TClose -> (forall nm, k <> TOpen nm) -> callees_end t k -> data_ok h sc ->
    exists h' out, renders_one h sc t k h' out.
  Proof.
    intros Ht Hc Ho Hcall Hd. destruct k as [s|s|s|s|s|s|s|s|s|]; try done.
    - eexists _, _; constructor.
    - eexists _, _; constructor.
    - destruct lg as [g|] eqn:El.
      + destruct (l_entries g !! s) as [v|] eqn:Ev; [exists h, v; by eapply ro_lang|exists h, []; apply ro_lang_missing; by intros g' [= <-]].
      + exists h, []. by apply ro_lang_missing.
    - (* reference *) destruct (split_on ":"%char s) as [|a ws] eqn:E; [by apply split_on_nonempty in E|]. apply separated_split in E.
      destruct (decide (length ws = 2%nat)) as [L|L].
      + destruct ws as [|f [|p [|]]]; try done. destruct (field_text_exists h sc f Hd) as [v Hv].
        destruct (choose_exists t [p ++ v; p] Ht) as [[x|] Hx].
        * destruct (choose_visible _ _ _ _ Hx) as (n & Hn & Hvn).
          assert (Hm : may_call (TRef s) n).
          { apply elem_of_cons in Hn as [->|Hn]; [by eapply mc_select|]. apply elem_of_list_singleton in Hn as ->.
            rewrite <- (app_nil_r p). by eapply mc_select. }
          destruct (Hcall n x h sc Hm Hvn Hd) as (h' & out & Hr). exists h', out. eapply ro_ref_select; [done..|by constructor].
        * exists h, []. eapply ro_ref_select; [done..|constructor].
      + destruct (visible_exists t a Ht) as [[x|] Hx]; [|exists h, []; by eapply ro_ref_unknown].
        assert (Hm : may_call (TRef s) a) by (by eapply mc_ref).
        destruct (decide (length ws = 1%nat)) as [L1|L1].
        * destruct ws as [|f [|]]; try done. destruct (data_ok_found h sc f Hd) as [r Hr].
          destruct (r ≫= as_dataset h) as [d|] eqn:Ed.
          -- destruct r as [v|]; [|done]. simpl in Ed. apply as_dataset_some in Ed as [-> Hds].
             destruct (data_ok_value h sc f d Hd Hr) as [Ha Hcm].
             destruct (Hcall a x h (d :: sc) Hm Hx) as (h' & out & Hr'); [by apply data_ok_push|]. exists h', out. by eapply ro_ref_narrow.
          -- destruct (Hcall a x h sc Hm Hx Hd) as (h' & out & Hr'). exists h', out. eapply ro_ref_keep; [done..| |done].
             by apply not_dataset.
        * destruct (Hcall a x h sc Hm Hx Hd) as (h' & out & Hr'). exists h', out. by eapply ro_ref.
    - (* range *) destruct (two_ids s) as [d b] eqn:E. apply two_ids_spec in E.
      destruct (visible_exists t b Ht) as [[x|] Hx]; [|exists h, []; by eapply ro_range_unknown].
      destruct (data_ok_found h sc d Hd) as [r Hr].
      destruct (visible_exists t (dotted b (B "none")) Ht) as [q Hq].
      assert (Hnone : (forall c xs, r = Some (VRef c) -> collection_at h c xs -> xs = []) -> exists h' out, renders_one h sc t (TRange s) h' out).
      { intros Hno. destruct (callee_or t (TRange s) b (dotted b (B "none")) x q h sc) as (h' & out & Hr'); try done;
          [by eapply mc_range|by eapply mc_range_choice|]. exists h', out. by eapply ro_range_none. }
      destruct (r ≫= as_collection h) as [l|] eqn:El.
      + destruct r as [v|]; [|done]. simpl in El. apply as_collection_some in El as [-> [cs Hcs]].
        destruct (decide (cs = [])) as [->|Hne].
        * apply Hnone. intros c xs [= <-] Hc'. by rewrite (collection_det _ _ _ _ Hc' Hcs).
        * destruct (data_ok_value h sc d l Hd Hr) as [Ha Hcm].
          destruct (loops_exist t s d b x (length cs) cs 0 h sc) as (h' & out & Hl); try done.
          -- by exists l, cs.
          -- apply Forall_forall. intros e He. destruct (Hcm l (rtc_refl _ _)) as (_ & _ & Hnn).
             destruct e as [d0|]; [|by destruct (Hnn cs Hcs)]. exists d0. split; [done|].
             assert (Hrch : reach h l d0) by (apply rtc_once; by eapply child_coll).
             split; [|split; [by eapply acyclic_reach|by eapply complete_reach]].
             destruct Hd as ((_ & Hw) & _). by eapply Hw.
          -- exists h', out. by eapply ro_range.
      + apply Hnone. intros c xs -> Hc'. simpl in El. by destruct (as_collection_none h (VRef c) El c xs eq_refl).
    - (* condition *) destruct (two_ids s) as [d b] eqn:E. apply two_ids_spec in E.
      destruct (visible_exists t b Ht) as [p Hp]. destruct (visible_exists t (dotted b (B "none")) Ht) as [q Hq].
      destruct (data_ok_found h sc d Hd) as [r Hr].
      assert (Hblank : blank F ord h r -> exists h' out, renders_one h sc t (TCond s) h' out).
      { intros Hb. destruct q as [y|].
        - destruct (Hcall (dotted b (B "none")) y h sc) as (h' & out & Hr'); [by eapply mc_cond_value|done|done|].
          exists h', out. eapply ro_cond_blank; [done..|by constructor].
        - destruct p as [x|].
          + destruct (Hcall b x h sc) as (h' & out & Hr'); [by eapply mc_cond|done|done|].
            exists h', out. eapply ro_cond_blank; [done..|by constructor].
          + exists h, []. eapply ro_cond_blank; [done..|constructor]. }
      destruct r as [v|]; [|apply Hblank; constructor].
      destruct (nil_or_not v) as [->|D]; [apply Hblank; constructor|].
      destruct (found_prints h sc d v Hd Hr) as [w Hw]. destruct (decide (w = [])) as [->|Hwn]; [apply Hblank; by constructor|].
      destruct p as [x|]; [|exists h, []; by eapply ro_cond_unknown].
      destruct (as_dataset h v) as [l|] eqn:Ed.
      + apply as_dataset_some in Ed as [-> Hds]. destruct (data_ok_value h sc d l Hd Hr) as [Ha Hcm].
        destruct (visible_exists t (dotted b (B "array")) Ht) as [q' Hq'].
        destruct (callee_or t (TCond s) b (dotted b (B "array")) x q' h (l :: sc)) as (h' & out & Hr'); try done;
          [by eapply mc_cond|by eapply mc_cond_value|by apply data_ok_push|].
        assert (C : counted h h') by exact (proj1 (renders_counted _ _ _ _) _ _ _ _ _ Hr').
        destruct (prints_exists F ord Hord h' (VRef l)) as [u Hu]; [intros l' [= <-]; by eapply counted_acyclic|].
        exists h', out. by eapply ro_cond_dataset.
      + destruct (visible_exists t (dotted b w) Ht) as [q' Hq'].
        destruct (callee_or t (TCond s) b (dotted b w) x q' h sc) as (h' & out & Hr'); try done;
          [by eapply mc_cond|by eapply mc_cond_value|].
        assert (C : counted h h') by exact (proj1 (renders_counted _ _ _ _) _ _ _ _ _ Hr').
        destruct (prints_exists F ord Hord h' v) as [u Hu]; [intros l ->; eapply counted_acyclic; [done|]; by eapply data_ok_value|].
        exists h', out. eapply ro_cond_value; try done. intros l ->. by apply (as_dataset_none h (VRef l)).
    - (* dump *) destruct (decide (s = B "dump" \/ s = B "list")) as [Hs|Hs]; [|exists h, []; apply ro_dump_other; tauto].
      destruct Hd as (Hw & Hne & Hsc). destruct (exists_last Hne) as (sc' & d & ->).
      assert (Hs' : sound h d) by (rewrite Forall_forall in Hsc; apply Hsc; apply elem_of_app; right; apply elem_of_list_here).
      destruct (dumps_exists F ord Hord h d) as [o Ho']; [apply wf_chain; [done|apply Hs']|apply Hs'|]. exists h, o. by apply ro_dump.
    - destruct (field_text_exists h sc s Hd) as [o Ho']. exists h, o. by apply ro_var.
    - by destruct (Ho s).
  Qed.
  Lemma all_exist h sc t l : is_Some (th !! t) -> Forall (fun k => k <> TClose /\ forall nm, k <> TOpen nm) l -> (forall k, k ∈ l -> callees_end t k) ->
    data_ok h sc -> exists h' out, renders_all F ord th lg h sc t l h' out.
  Proof.
    intros Ht Hl. revert h. induction Hl as [|k l [Hc Ho] _ IH]; intros h Hcall Hd; [eexists _, _; constructor|].
    destruct (element_exists h sc t k Ht Hc Ho (Hcall k (elem_of_list_here _ _)) Hd) as (h1 & o1 & H1).
    assert (C : counted h h1) by exact (proj1 (proj2 (proj2 (proj2 (renders_counted F ord th lg)))) _ _ _ _ _ _ H1).
    destruct (IH h1) as (h2 & o2 & H2); [intros k' Hk'; apply Hcall; by apply elem_of_list_further|by eapply data_ok_counted|].
    eexists h2, _. by eapply ra_cons.
  Qed.
  Lemma ranked_ends t h sc : is_Some (th !! t) -> data_ok h sc -> exists h' out, renders h sc t h' out.
  Proof.
    remember (rank t) as r eqn:Er. revert t h sc Er. induction r as [r IH] using lt_wf_ind. intros t h sc -> [T HT] Hd.
    destruct (t_root T) as [ps|] eqn:Hr; [|eexists _, _; by eapply rd_not_compiled].
    destruct (Hcomp t T ps HT Hr) as (l & -> & Hl).
    destruct (all_exist h sc t l) as (h' & out & H); [by exists T|done| |done|].
    - intros k Hk n x h0 sc0 Hm Hv Hd0. eapply (IH (rank x)); [by eapply Hrank|done|by eapply closed_visible|done].
    - exists h', out. by eapply rd_root.
  Qed.
End Ranked.
Lemma execute_ends F ord langs th rank h t d : order_ok ord -> compiled th -> closed th -> rooted th -> ranked th rank ->
  is_Some (th !! t) -> wf h -> dataset_at h d -> acyclic h d -> complete h d ->
  exists n h' out, execute F ord langs th n h t (Some d) = Ok (h', out).
Proof.
  intros Ho Hc Hcl Hro Hra Ht Hw Hd Ha Hcm.
  assert (Hok : data_ok h [d]) by (split; [done|]; split; [done|]; constructor; [split; [exact Hd|split; [exact Ha|exact Hcm]]|constructor]).
  assert (L : exists lg, language_of langs h d lg).
  { destruct (data_ok_found h [d] (B "#") Hok) as [r Hr].
    assert (Ha' : answers h d (B "#") r) by (inversion Hr; subst; [done|]; match goal with H : found h [] _ _ |- _ => by inversion H; subst end).
    destruct (other_or_not r) as [[k ->]|D]; [exists (langs k), (Some (VOther k)); split; [done|]; left; eauto|exists None, r; split; [done|]; by right]. }
  destruct L as [lg Hl]. destruct (ranked_ends F ord th lg rank Ho Hc Hcl Hro Hra t h [d] Ht Hok) as (h' & out & Hr).
  assert (E : executes F ord langs th h t d h' out) by (by exists lg). apply execute_meaning in E as [n E]; [|done]. by exists n, h', out.
Qed.

(** ** A template that refers to itself *)
Lemma self_reference F ord th lg t T l s a : th !! t = Some T -> t_root T = Some (map stored l) -> TRef s ∈ l -> separated ":"%char s a [] ->
  visible th t a (Some t) -> forall n st r, injector F ord th n lg st t <> Ok r.
Proof.
  intros HT Hr Hin Hs Hv n. induction n as [|n IH]; intros st r; cbn [injector]; [done|]. rewrite HT, Hr. intros H.
  apply obind_ok in H as (x & H & _). clear Hr. revert st x H. induction l as [|k l IHl]; intros st x H; [by apply elem_of_nil in Hin|].
  cbn [map do_params] in H. apply obind_ok in H as ([st1 o] & H1 & H2). apply obind_ok in H2 as ([st2 o2] & H2 & _).
  apply elem_of_cons in Hin as [<-|Hin]; [|by eapply IHl].
  change (do_reference F ord th n (injector F ord th n lg) st t (split_on ":"%char s) = Ok (st1, o)) in H1.
  apply separated_split in Hs. rewrite Hs in H1. cbn [do_reference] in H1. apply obind_ok in H1 as (q & Hq & H1).
  assert (Hvq : visible th t a q) by (apply get_template_visible; by exists n). rewrite <- (visible_unique _ _ _ _ _ Hv Hvq) in H1.
  unfold run_on in H1. apply obind_ok in H1 as (y & H1 & _). by eapply IH.
Qed.
Lemma self_reference_executes F ord langs th t T l s a : th !! t = Some T -> t_root T = Some (map stored l) -> TRef s ∈ l -> separated ":"%char s a [] ->
  visible th t a (Some t) -> forall n h data r, execute F ord langs th n h t data <> Ok r.
Proof.
  intros HT Hr Hin Hs Hv n h data r H. unfold execute in H. destruct data as [d|].
  - apply obind_ok in H as (q & _ & H). apply obind_ok in H as (y & H & _). by eapply self_reference.
  - apply obind_ok in H as (y & H & _). by eapply self_reference.
Qed.
