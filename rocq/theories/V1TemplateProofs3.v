(** * Version 1: every execution is described by the relation. *)
From Verif Require Import GoBase GoStrings GoStringsProofs Regex DatasetModel LangModel DatasetSpec DatasetProofs DatasetProofs2 DatasetProofs3
  DatasetProofs5 TemplateModel TemplateSpec TemplateProofs2 TemplateProofs3 TemplateProofs4 TemplateProofs5 TemplateProofs6 RenderSpec
  RenderProofs RenderProofs2 RenderProofs3 RenderProofs6 RenderProofs7 V1Template V1TemplateSpec.
Local Open Scope Z_scope.
Notation stack := (option (list (option loc))).

Lemma get1_has th t n r : get_template1 th t n = Ok r <-> has th t n r.
Proof.
  unfold get_template1, has, subs_of. split.
  - destruct (th !! t) as [T|]; [|done]. intros [= <-]. exists T. split; [done|]. by destruct (t_subs T).
  - intros (T & -> & ->). by destruct (t_subs T).
Qed.
Lemma get1_some th t n : is_Some (th !! t) -> exists r, get_template1 th t n = Ok r /\ has th t n r.
Proof. intros [T HT]. eexists. split; [unfold get_template1; by rewrite HT|]. apply get1_has. unfold get_template1. by rewrite HT. Qed.
Lemma names1_choose th t ns r : try_names1 th t ns = Ok r <-> choose1 th t ns r.
Proof.
  split.
  - revert r. induction ns as [|n ns IH]; intros r; simpl; [intros [= <-]; constructor|].
    destruct (get_template1 th t n) as [[x|]| |] eqn:E; simpl; try done.
    + intros [= <-]. apply c1_here. by apply get1_has.
    + intros H. apply c1_next; [by apply get1_has|by apply IH].
  - induction 1 as [|n ns x H|n ns r H _ IH]; simpl; [done|..]; apply get1_has in H; rewrite H; done.
Qed.
Lemma names1_some th t ns : is_Some (th !! t) -> exists r, try_names1 th t ns = Ok r /\ choose1 th t ns r.
Proof.
  intros Ht. induction ns as [|n ns (r & E & H)]; [exists None; split; [done|constructor]|].
  destruct (get1_some th t n Ht) as ([x|] & E' & H'); simpl; rewrite E'; simpl.
  - exists (Some x). split; [done|by apply c1_here].
  - exists r. split; [done|by apply c1_next].
Qed.

Lemma choose1_one th t n q : choose1 th t [n] q -> has th t n q.
Proof. inversion 1 as [|? ? ? H1|? ? ? H1 H2]; subst; [done|]. by inversion H2; subst. Qed.
Lemma spop1_push (xs : list (option loc)) d : spop1 (Some (xs ++ [d])) = Ok (Some xs).
Proof. unfold spop1. simpl. rewrite reverse_snoc. by rewrite reverse_involutive. Qed.

Section Sound1.
  Context (F : golib) (ord : heap -> gmap bytes value -> list (bytes * value)) (th : theap) (h : heap) (lg : option lang).
  Context (Hw : wf h) (Hcl : closed th).
  Notation renders1 := (renders1 F ord h th lg).
  Notation one1 := (one1 F ord h th lg).
  Notation opt1 := (opt1 F ord h th lg).
  Notation loops1 := (loops1 F ord h th lg).
  Notation all1 := (all1 F ord h th lg).
  (** The datasets of the stack exist; the outermost is not nil. *)
  Definition datasets (sc : list (option loc)) : Prop := forall d, Some d ∈ sc -> dataset_at h d.
  Definition stack_ok (st : stack) : Prop :=
    match st with None => True | Some xs => (exists d ys, xs = Some d :: ys) /\ datasets xs end.
  Definition scope_of (st : stack) : stack := reverse <$> st.
  Definition sound_for (st : stack) (o : outcome (stack * list bytes)) (R : option bytes -> Prop) : Prop :=
    match o with NoFuel => True | Panic => R None | Ok (st', outs) => st' = st /\ R (Some (concat outs)) end.
  Lemma sf_imp st o (R R' : option bytes -> Prop) : sound_for st o R -> (forall r, R r -> R' r) -> sound_for st o R'.
  Proof. intros H HR. destruct o as [[st' outs]| |]; simpl in *; [|by apply HR|done]. destruct H as [-> H]. split; [done|by apply HR]. Qed.

  Lemma search_found1 n sc key : datasets sc ->
    match search n h sc key with NoFuel => True | Panic => found1 h sc key None | Ok r => found1 h sc key (Some r) end.
  Proof.
    induction sc as [|[d|] sc IH]; intros Hd; simpl; [constructor| |constructor].
    destruct (dget n h d key) as [[v|]| |] eqn:E; simpl.
    - apply f1_here. apply answers_gets. by exists n.
    - assert (Ha : answers h d key None) by (apply answers_gets; by exists n).
      specialize (IH ltac:(intros x Hx; apply Hd; by right)). destruct (search n h sc key); [| |done]; by apply f1_outer.
    - exfalso. apply (get_no_panic n h d key); [done|apply Hd; by left|done].
    - done.
  Qed.
  Lemma datasets_reverse xs : datasets xs -> datasets (reverse xs).
  Proof. intros H d Hd. apply H. by rewrite elem_of_reverse in Hd. Qed.
  Lemma stack_found1 n xs key : datasets xs ->
    match stack_data1 h n xs key with NoFuel => True | Panic => found1 h (reverse xs) key None | Ok r => found1 h (reverse xs) key (Some r) end.
  Proof. intros H. by apply search_found1, datasets_reverse. Qed.
  Lemma sprint_not_panic n v : sprint F ord n h v <> Panic.
  Proof. apply show_value_no_panic. Qed.
  Lemma stack_text1 n xs key : datasets xs ->
    match stack_string1 F ord h n xs key with NoFuel => True | Panic => text1 F ord h (reverse xs) key None | Ok r => text1 F ord h (reverse xs) key (Some r) end.
  Proof.
    intros H. pose proof (stack_found1 n xs key H) as Hf. unfold stack_string1.
    destruct (stack_data1 h n xs key) as [[v|]| |]; simpl; [|by apply t1_missing|by apply t1_panic|done].
    destruct (nil_or_not v) as [->|Hv]; [by apply t1_nil|].
    pose proof (sprint_not_panic n v) as Hp. destruct (sprint F ord n h v) as [s| |] eqn:E; [|done|].
    - replace (match v with VNil => Ok [] | _ => Ok s end) with (Ok s : outcome bytes) by (by destruct v).
      assert (Hx : text1 F ord h (reverse xs) key (Some s)) by (apply t1_value with v; [done|done|by exists n]). by destruct v.
    - by destruct v.
  Qed.
  Lemma sub_exists t n x : has th t n (Some x) -> is_Some (th !! x).
  Proof. intros (T & HT & E). by eapply (proj1 Hcl). Qed.
  Lemma choice_exists t ns x : choose1 th t ns (Some x) -> is_Some (th !! x).
  Proof. intros H. remember (Some x) as r eqn:E. induction H as [|n ns y H|n ns r H _ IH]; [done| |by apply IH]. injection E as ->. by eapply sub_exists. Qed.

  Section Body.
    Context (n : nat) (inj : stack -> loc -> outcome (stack * bytes)).
    Context (Hinj : forall st t, stack_ok st -> is_Some (th !! t) ->
      match inj st t with NoFuel => True | Panic => renders1 (scope_of st) t None | Ok (st', out) => st' = st /\ renders1 (scope_of st) t (Some out) end).
    Lemma run_on1_sound st t : stack_ok st -> is_Some (th !! t) -> sound_for st (run_on1 inj st t) (renders1 (scope_of st) t).
    Proof.
      intros Hst Ht. specialize (Hinj st t Hst Ht). unfold run_on1. destruct (inj st t) as [[st' out]| |]; simpl; [|done|done].
      destruct Hinj as [-> H]. by rewrite app_nil_r.
    Qed.
    Lemma run_opt1_sound st q : stack_ok st -> (forall t, q = Some t -> is_Some (th !! t)) -> sound_for st (run_opt1 inj st q) (opt1 (scope_of st) q).
    Proof.
      intros Hst Hq. destruct q as [t|]; simpl; [|split; [done|constructor]].
      eapply sf_imp; [apply run_on1_sound; [done|by apply Hq]|]. intros r Hr. by constructor.
    Qed.
    Lemma run_in1_sound xs d t : stack_ok (Some xs) -> (forall x, d = Some x -> dataset_at h x) -> is_Some (th !! t) ->
      sound_for (Some xs) (run_in1 inj (Some xs) d t) (renders1 (Some (d :: reverse xs)) t).
    Proof.
      intros Hst Hd Ht. unfold run_in1. cbn [spush1 non_nil1 obind].
      assert (Hok : stack_ok (Some (xs ++ [d]))).
      { destruct Hst as [(e & ys & ->) Hst]. split; [by exists e, (ys ++ [d])|].
        intros x [Hx|Hx]%elem_of_app; [by apply Hst|]. apply elem_of_list_singleton in Hx. by apply Hd. }
      specialize (Hinj _ t Hok Ht). unfold scope_of in Hinj. cbn [fmap option_fmap option_map] in Hinj. rewrite reverse_snoc in Hinj.
      destruct (inj (Some (xs ++ [d])) t) as [[st' out]| |]; cbn [obind]; [|done|done].
      destruct Hinj as [-> H]. rewrite spop1_push. simpl. by rewrite app_nil_r.
    Qed.
    Lemma reference1_sound st t s : stack_ok st -> is_Some (th !! t) ->
      sound_for st (do_reference1 F ord th h n inj st t (split_on ":"%char s)) (one1 (scope_of st) t (TRef s)).
    Proof.
      intros Hst Ht. destruct (split_on ":"%char s) as [|a ws] eqn:E; [by apply split_on_nonempty in E|].
      apply separated_split in E.
      assert (Hgen : length ws <> 1%nat -> length ws <> 2%nat ->
        sound_for st (r <-! get_template1 th t a; match r with None => Ok (st, []) | Some subt => run_on1 inj st subt end) (one1 (scope_of st) t (TRef s))).
      { intros L1 L2. destruct (get1_some th t a Ht) as ([x|] & -> & Hh); cbn [obind].
        - eapply sf_imp; [apply run_on1_sound; [done|by eapply sub_exists]|]. intros r Hr. by eapply o1_ref.
        - split; [done|]. by eapply o1_ref_unknown. }
      unfold do_reference1. destruct ws as [|field [|prefix [|e ws]]]; [by apply Hgen| | |by apply Hgen].
      - destruct (get1_some th t a Ht) as ([x|] & -> & Hh); cbn [obind]; [|split; [done|]; by eapply o1_ref_unknown].
        destruct st as [xs|]; cbn [non_nil1 obind]; [|by eapply o1_narrow_nodata].
        pose proof (stack_found1 n xs field (proj2 Hst)) as Hf.
        destruct (stack_data1 h n xs field) as [v| |]; cbn [obind]; [|by eapply o1_narrow_panic|done].
        destruct (v ≫= as_dataset h) as [d|] eqn:Ed.
        + destruct v as [v|]; [|done]. simpl in Ed. apply as_dataset_some in Ed as [-> Hd].
          eapply sf_imp; [apply run_in1_sound; [done|by intros y [= <-]|by eapply sub_exists]|]. intros r Hr. by eapply o1_narrow.
        + eapply sf_imp; [apply run_on1_sound; [done|by eapply sub_exists]|]. intros r Hr. eapply o1_keep; try done.
          by apply not_dataset.
      - destruct st as [xs|]; cbn [non_nil1 obind]; [|by eapply o1_select_nodata].
        pose proof (stack_text1 n xs field (proj2 Hst)) as Hf.
        destruct (stack_string1 F ord h n xs field) as [v| |]; cbn [obind]; [|by eapply o1_select_panic|done].
        destruct (names1_some th t [prefix ++ v; prefix] Ht) as (q & -> & Hq). cbn [obind].
        eapply sf_imp; [apply run_opt1_sound; [done|intros y ->; by eapply choice_exists]|]. intros r Hr. by eapply o1_select.
    Qed.
    Lemma or_else_exists t ns q x : choose1 th t ns q -> is_Some (th !! x) -> is_Some (th !! or_else q x).
    Proof. intros Hq Hx. destruct q as [y|]; [|done]. by eapply choice_exists. Qed.
    Lemma loop1_sound k i xs t b x cl cs : stack_ok (Some xs) -> is_Some (th !! t) -> is_Some (th !! x) -> collection_at h cl cs -> (i <= length cs)%nat ->
      sound_for (Some xs) (do_loop1 th h inj k (Z.of_nat i) (Some xs) t b x cl) (loops1 (reverse xs) t b x i (length cs) (drop i cs)).
    Proof.
      intros Hst Ht Hx Hc. revert i. induction k as [|k IH]; intros i Hi; cbn [do_loop1]; [done|].
      assert (Hel : elements h cl = Some cs) by (by apply elements_some).
      unfold ccount. rewrite Hel. cbn [obind]. rewrite element_names_eq by lia. rewrite Nat2Z.id.
      destruct (bool_decide (Z.of_nat i < Z.of_nat (length cs))) eqn:Eb.
      2:{ apply bool_decide_eq_false in Eb. split; [done|]. rewrite drop_ge by lia. constructor. }
      apply bool_decide_eq_true in Eb.
      destruct (names1_some th t (element_names b i (length cs)) Ht) as (q & -> & Hq). cbn [obind].
      unfold cget. rewrite Hel. rewrite bool_decide_eq_false_2 by lia. cbn [orb].
      rewrite bool_decide_eq_false_2 by lia. rewrite Nat2Z.id.
      destruct (lookup_lt_is_Some_2 cs i) as [e Ei]; [lia|]. rewrite Ei. cbn [obind].
      assert (Hr := run_in1_sound xs e (or_else q x) Hst).
      specialize (Hr ltac:(intros y ->; eapply (proj2 Hw); [exact Hc|by eapply elem_of_list_lookup_2]) (or_else_exists _ _ _ _ Hq Hx)).
      unfold or_else in Hr. destruct (run_in1 inj (Some xs) e _) as [[st1 outs1]| |]; cbn [obind]; [|by rewrite (drop_S cs e i Ei); eapply l1_panic|done].
      destruct Hr as [-> Hr]. replace (Z.of_nat i + 1) with (Z.of_nat (S i)) by lia.
      specialize (IH (S i) ltac:(lia)). rewrite (drop_S cs e i Ei).
      destruct (do_loop1 th h inj k (Z.of_nat (S i)) (Some xs) t b x cl) as [[st2 outs2]| |]; cbn [obind]; [|by eapply l1_later|done].
      destruct IH as [-> IH]. split; [done|]. rewrite concat_app. by eapply l1_next.
    Qed.
    Lemma range1_sound st t s : stack_ok st -> is_Some (th !! t) -> sound_for st (do_range1 th h n inj st t s) (one1 (scope_of st) t (TRange s)).
    Proof.
      intros Hst Ht. unfold do_range1. destruct (two_ids s) as [d b] eqn:E. apply two_ids_spec in E.
      destruct (get1_some th t b Ht) as (q & -> & Hh). cbn [obind].
      destruct q as [x|]; [|split; [done|]; by eapply o1_range_unknown].
      destruct st as [xs|]; [|split; [done|]; by eapply o1_range_nodata].
      unfold stack_collection1. pose proof (stack_found1 n xs d (proj2 Hst)) as Hf.
      destruct (stack_data1 h n xs d) as [v| |]; cbn [obind]; [|by eapply o1_range_panic|done].
      destruct v as [v|].
      - destruct (as_collection h v) as [c|] eqn:Ec; cbn [obind].
        + apply as_collection_some in Ec as (-> & cs & Hc).
          eapply sf_imp; [apply (loop1_sound n 0 xs t b x c cs); [done|done|by eapply sub_exists|done|lia]|].
          intros r Hr. by eapply o1_range.
        + eapply o1_range_other; [done|done|done|]. by apply as_collection_none.
      - cbn [obind]. destruct (names1_some th t [dot b (B "none")] Ht) as (q & Eq & Hq). rewrite Eq. cbn [obind].
        assert (Hn : has th t (dotted b (B "none")) q).
        { change dotted with dot. by apply choose1_one. }
        eapply sf_imp; [apply run_on1_sound; [done|]|].
        + destruct q as [y|]; by eapply sub_exists.
        + intros r Hr. by eapply o1_range_none.
    Qed.
    Lemma condition1_sound st t s : stack_ok st -> is_Some (th !! t) -> sound_for st (do_condition1 F ord th h n inj st t s) (one1 (scope_of st) t (TCond s)).
    Proof.
      intros Hst Ht. unfold do_condition1. destruct (two_ids s) as [d b] eqn:E. apply two_ids_spec in E.
      destruct (get1_some th t b Ht) as (q & -> & Hh). cbn [obind].
      destruct st as [xs|]; cbn [obind]; [|destruct q; (split; [done|]); by eapply o1_cond_nodata].
      pose proof (stack_found1 n xs d (proj2 Hst)) as Hf.
      destruct (stack_data1 h n xs d) as [v| |]; cbn [obind]; [|by eapply o1_cond_panic|done].
      destruct q as [x|]; [|split; [done|]; by eapply o1_cond_unknown].
      destruct v as [v|]; cbn [is_nil]; [|split; [done|]; eapply o1_cond_missing; eauto].
      destruct (nil_or_not v) as [->|Hv]; [split; [done|]; eapply o1_cond_missing; eauto|].
      replace (is_nil v) with false by (by destruct v).
      destruct (as_dataset h v) as [y|] eqn:Ed.
      - apply as_dataset_some in Ed as [-> Hy]. cbn [spush1 non_nil1 obind]. rewrite spop1_push. cbn [obind].
        split; [done|]. by eapply o1_cond_dataset.
      - pose proof (sprint_not_panic n v) as Hp. destruct (sprint F ord n h v) as [w| |] eqn:Es; cbn [obind]; [|done|done].
        assert (Hpr : prints F ord h v w) by (by exists n).
        assert (Hnd : forall l, v = VRef l -> ~ dataset_at h l) by (by apply as_dataset_none).
        destruct w as [|c w]; [split; [done|]; by eapply o1_cond_empty|].
        destruct (get1_some th t (dot b (c :: w)) Ht) as (q & -> & Hq). cbn [obind].
        eapply sf_imp; [apply run_on1_sound; [done|]|].
        + destruct q as [y|]; by eapply sub_exists.
        + intros r Hr. by eapply o1_cond.
    Qed.
    Lemma dump1_sound st t s : stack_ok st -> sound_for st (do_param1 F ord th h n lg inj st t (stored (TDump s))) (one1 (scope_of st) t (TDump s)).
    Proof.
      intros Hst. unfold do_param1. cbn [stored p_data p_type].
      repeat (rewrite bool_decide_eq_false_2 by done). rewrite bool_decide_eq_true_2 by done.
      destruct st as [xs|]; [|split; [done|apply o1_dump_nodata]]. destruct Hst as [(d & ys & ->) Hd].
      case_bool_decide as Hs.
      - assert (Hch : DatasetSpec.chain h d).
        { destruct (Hd d) as [[m Hm]|[w Hm]]; [by left|by eapply chain_ds|]. by eapply (proj1 Hw). }
        pose proof (show_chain_ok F ord n h true d Hch) as Hp.
        destruct (show F ord n h true d) as [o| |] eqn:E; cbn [obind]; [|done|done]. split; [done|]. cbn [concat]. rewrite app_nil_r.
        unfold scope_of. cbn [fmap option_fmap option_map]. rewrite reverse_cons. apply o1_dump; [done|]. by exists n.
      - split; [done|]. apply o1_dump_other; tauto.
    Qed.
    Lemma param1_sound st t k : stack_ok st -> is_Some (th !! t) -> k <> TClose -> (forall nm, k <> TOpen nm) ->
      sound_for st (do_param1 F ord th h n lg inj st t (stored k)) (one1 (scope_of st) t k).
    Proof.
      intros Hst Ht Hc Ho. destruct k as [s|s|s|s|s|s|s|s|s|]; try done.
      - split; [done|]. simpl. rewrite app_nil_r. constructor.
      - split; [done|]. constructor.
      - change (sound_for st (Ok (st, match lg with Some l => [lget l s] | None => [] end)) (one1 (scope_of st) t (TLang s))).
        split; [done|]. destruct lg as [g|] eqn:Eg.
        + simpl. rewrite app_nil_r. unfold lget. destruct (l_entries g !! s) as [v|] eqn:Ev.
          * by eapply o1_lang.
          * apply o1_lang_missing. intros g' Hg'. congruence.
        + apply o1_lang_missing. intros g' Hg'. congruence.
      - by apply reference1_sound.
      - by apply range1_sound.
      - by apply condition1_sound.
      - by apply dump1_sound.
      - destruct st as [xs|]; [|split; [done|]; apply o1_var_nodata].
        change (sound_for (Some xs) (d <-! stack_string1 F ord h n xs s; Ok (Some xs, [d])) (one1 (scope_of (Some xs)) t (TVar s))).
        pose proof (stack_text1 n xs s (proj2 Hst)) as Hf. destruct (stack_string1 F ord h n xs s) as [v| |]; simpl; [|by apply o1_var|done].
        split; [done|]. rewrite app_nil_r. by apply o1_var.
      - by destruct (Ho s).
    Qed.
    Lemma params1_sound st t l : stack_ok st -> is_Some (th !! t) -> Forall (fun k => k <> TClose /\ forall nm, k <> TOpen nm) l ->
      sound_for st (do_params1 F ord th h n lg inj st t (map stored l)) (all1 (scope_of st) t l).
    Proof.
      intros Hst Ht. induction 1 as [|k l [Hc Ho] Hl IH]; cbn [map do_params1]; [split; [done|constructor]|].
      pose proof (param1_sound st t k Hst Ht Hc Ho) as Hk.
      destruct (do_param1 F ord th h n lg inj st t (stored k)) as [[st1 a]| |]; cbn [obind]; [|by apply a1_panic|done].
      destruct Hk as [-> Hk]. destruct (do_params1 F ord th h n lg inj st t (map stored l)) as [[st2 b]| |]; cbn [obind]; [|by eapply a1_later|done].
      destruct IH as [-> IH]. split; [done|]. rewrite concat_app. by apply a1_cons.
    Qed.
  End Body.
  Lemma injector1_sound n st t : compiled th -> stack_ok st -> is_Some (th !! t) ->
    match injector1 F ord th h n lg st t with
    | NoFuel => True | Panic => renders1 (scope_of st) t None | Ok (st', out) => st' = st /\ renders1 (scope_of st) t (Some out) end.
  Proof.
    intros Hcomp. revert st t. induction n as [|n IH]; intros st t Hst Ht; cbn [injector1]; [done|].
    destruct Ht as [T HT]. rewrite HT. destruct (t_root T) as [ps|] eqn:Hr.
    - destruct (Hcomp t T ps HT Hr) as (l & -> & Hl).
      pose proof (params1_sound n (injector1 F ord th h n lg) IH st t l Hst ltac:(by exists T) Hl) as H.
      destruct (do_params1 F ord th h n lg (injector1 F ord th h n lg) st t (map stored l)) as [[st' outs]| |]; cbn [obind]; [|by eapply r1_root|done].
      destruct H as [-> H]. split; [done|]. by eapply r1_root.
    - split; [done|]. by eapply r1_not_compiled.
  Qed.
End Sound1.
