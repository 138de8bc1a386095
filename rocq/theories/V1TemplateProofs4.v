(** * Version 1: everything the relation describes is an execution. *)
From Verif Require Import GoBase GoStrings GoStringsProofs Regex DatasetModel LangModel DatasetSpec DatasetProofs DatasetProofs2 DatasetProofs3
  DatasetProofs5 TemplateModel TemplateSpec TemplateProofs2 TemplateProofs3 TemplateProofs4 TemplateProofs5 TemplateProofs6 RenderSpec
  RenderProofs RenderProofs2 RenderProofs3 RenderProofs6 RenderProofs7 V1Template V1TemplateSpec V1TemplateProofs3.
Local Open Scope Z_scope.

Definition same {A} (r : option A) : outcome A := match r with Some v => Ok v | None => Panic end.
Lemma found1_ev h sc key r : found1 h sc key r -> ev (fun n => stack_data1 h n (reverse sc) key = same r).
Proof.
  unfold stack_data1. rewrite reverse_involutive. induction 1 as [key|sc key|d sc key v Ha|d sc key r Ha Hf IH].
  - by apply ev_all.
  - by apply ev_all.
  - apply answers_gets in Ha as [n Hn]. exists n. intros m Hm. simpl.
    by rewrite (dget_mono n m h d key _ Hm Hn).
  - apply answers_gets in Ha as [n Hn]. destruct IH as [n' IH]. exists (n `max` n')%nat. intros m Hm. simpl.
    rewrite (dget_mono n m h d key _ ltac:(lia) Hn) by done. simpl. apply IH. lia.
Qed.
Lemma text1_ev F ord h sc key r : text1 F ord h sc key r -> ev (fun n => stack_string1 F ord h n (reverse sc) key = same r).
Proof.
  unfold stack_string1. intros [H|H|v s' H Hv Hp|H]; apply found1_ev in H.
  - revert H. apply ev_imp. intros n H. by rewrite H.
  - revert H. apply ev_imp. intros n H. by rewrite H.
  - apply prints_ev in Hp. pose proof (ev_and _ _ H Hp) as Hb. revert Hb. apply ev_imp. intros n [H1 H2]. rewrite H1. simpl. by destruct v.
  - revert H. apply ev_imp. intros n H. by rewrite H.
Qed.

Section Complete1.
  Context (F : golib) (ord : heap -> gmap bytes value -> list (bytes * value)) (th : theap) (h : heap) (lg : option lang).
  Notation run n := (injector1 F ord th h n lg).
  Definition rev (sc : stack) : stack := reverse <$> sc.
  Definition ends1 (sc : stack) (t : loc) (r : option bytes) : Prop :=
    ev (fun n => run n (rev sc) t = match r with Some out => Ok (rev sc, out) | None => Panic end).
  Definition yields (o : outcome (stack * list bytes)) (sc : stack) (r : option bytes) : Prop :=
    match r with Some out => exists outs, o = Ok (rev sc, outs) /\ concat outs = out | None => o = Panic end.
  Definition part1 (f : nat -> outcome (stack * list bytes)) (sc : stack) (r : option bytes) : Prop := ev (fun n => yields (f n) sc r).
  Lemma run_on1_ends sc t r : ends1 sc t r -> part1 (fun n => run_on1 (run n) (rev sc) t) sc r.
  Proof.
    apply ev_imp. intros n H. unfold run_on1. rewrite H. destruct r as [out|]; simpl; [|done].
    exists [out]. split; [done|]. simpl. by rewrite app_nil_r.
  Qed.
  Lemma run_in1_ends sc d t r : ends1 (Some (d :: sc)) t r -> part1 (fun n => run_in1 (run n) (rev (Some sc)) d t) (Some sc) r.
  Proof.
    apply ev_imp. intros n H. unfold run_in1, rev in *. cbn [fmap option_fmap option_map] in *. rewrite reverse_cons in H.
    cbn [spush1 non_nil1 obind]. rewrite H. destruct r as [out|]; cbn [obind]; [|done]. rewrite spop1_push.
    exists [out]. split; [done|]. simpl. by rewrite app_nil_r.
  Qed.
  Lemma part1_imp f g sc r : ev (fun n => f n = g n) -> part1 g sc r -> part1 f sc r.
  Proof. intros H1 H2. pose proof (ev_and _ _ H1 H2) as H. revert H. apply ev_imp. intros n [E Hy]. by rewrite E. Qed.
  Lemma part1_panic f sc : ev (fun n => f n = Panic) -> part1 f sc None.
  Proof. done. Qed.
  Lemma part1_empty f sc : ev (fun n => f n = Ok (rev sc, [])) -> part1 f sc (Some []).
  Proof. apply ev_imp. intros n H. by exists []. Qed.
  Lemma reference_eq n st t s : do_param1 F ord th h n lg (run n) st t (stored (TRef s)) = do_reference1 F ord th h n (run n) st t (split_on ":"%char s).
  Proof. done. Qed.
  Lemma range_eq n st t s : do_param1 F ord th h n lg (run n) st t (stored (TRange s)) = do_range1 th h n (run n) st t s.
  Proof. done. Qed.
  Lemma cond_eq n st t s : do_param1 F ord th h n lg (run n) st t (stored (TCond s)) = do_condition1 F ord th h n (run n) st t s.
  Proof. done. Qed.
  Lemma dump_eq n st t s : do_param1 F ord th h n lg (run n) st t (stored (TDump s)) =
    match st with
    | Some (Some d :: _) => if bool_decide (s = B "dump" \/ s = B "list") then o <-! show F ord n h true d; Ok (st, [o]) else Ok (st, [])
    | _ => Ok (st, [])
    end.
  Proof. done. Qed.
  Lemma names1 t ns q : choose1 th t ns q -> try_names1 th t ns = Ok q.
  Proof. apply names1_choose. Qed.
  Lemma name1 t n q : has th t n q -> get_template1 th t n = Ok q.
  Proof. apply get1_has. Qed.
  Lemma none1 t b q : has th t (dotted b (B "none")) q -> try_names1 th t [dot b (B "none")] = Ok q.
  Proof. intros H%name1. cbn [try_names1]. change dot with dotted. rewrite H. by destruct q. Qed.

  Lemma loop1_step : forall sc t b x i e es q r1 cl cs n k, choose1 th t (element_names b i (length cs)) q -> collection_at h cl cs -> drop i cs = e :: es ->
        yields (run_in1 (run n) (rev (Some sc)) e (or_else q x)) (Some sc) r1 ->
        exists outs, match r1 with Some o1 => concat outs = o1 | None => True end /\
        do_loop1 th h (run n) (S k) (Z.of_nat i) (rev (Some sc)) t b x cl =
          match r1 with
          | Some _ => '(st4, outs') <-! do_loop1 th h (run n) k (Z.of_nat (S i)) (rev (Some sc)) t b x cl; Ok (st4, outs ++ outs')
          | None => Panic end.
  Proof.
    intros sc t b x i e es q r1 cl cs n k Hq Hc Hd Hy.
    assert (Hi : cs !! i = Some e) by (replace i with (i + 0)%nat by lia; rewrite <- lookup_drop, Hd; done).
    pose proof (lookup_lt_Some _ _ _ Hi) as Hlt. cbn [do_loop1]. unfold ccount.
    rewrite (proj2 (elements_some h cl cs) Hc). cbn [obind]. rewrite bool_decide_eq_true_2 by lia.
    rewrite element_names_eq by lia. rewrite Nat2Z.id, (names1 _ _ _ Hq). cbn [obind].
    unfold cget. rewrite (proj2 (elements_some h cl cs) Hc). rewrite bool_decide_eq_false_2 by lia. cbn [orb].
    rewrite bool_decide_eq_false_2 by lia. rewrite Nat2Z.id, Hi. cbn [obind].
    replace (Z.of_nat i + 1) with (Z.of_nat (S i)) by lia. unfold or_else in Hy.
    destruct r1 as [o1|]; cbn [yields] in Hy; [|exists []; by rewrite Hy]. destruct Hy as (outs & E & <-). exists outs. by rewrite E.
  Qed.
  Lemma drop_next i (cs : list (option loc)) e es : drop i cs = e :: es -> drop (S i) cs = es.
  Proof. intros Hd. replace (S i) with (i + 1)%nat by lia. rewrite <- drop_drop, Hd. done. Qed.
  Lemma renders1_complete :
    (forall sc t r, renders1 F ord h th lg sc t r -> ends1 sc t r) /\
    (forall sc t l r, all1 F ord h th lg sc t l r -> part1 (fun n => do_params1 F ord th h n lg (run n) (rev sc) t (map stored l)) sc r) /\
    (forall sc q r, opt1 F ord h th lg sc q r -> part1 (fun n => run_opt1 (run n) (rev sc) q) sc r) /\
    (forall sc t k r, one1 F ord h th lg sc t k r -> part1 (fun n => do_param1 F ord th h n lg (run n) (rev sc) t (stored k)) sc r) /\
    (forall sc t b x i n es r, loops1 F ord h th lg sc t b x i n es r ->
       forall cl cs, collection_at h cl cs -> drop i cs = es -> n = length cs ->
       ev (fun n => forall k, (length es < k)%nat -> yields (do_loop1 th h (run n) k (Z.of_nat i) (rev (Some sc)) t b x cl) (Some sc) r)).
  Proof.
    apply renders1_mutind.
    - (* root *) intros sc t T l r HT Hr _ [n0 IH]. exists (S n0). intros n Hn. destruct n as [|n]; [lia|]. cbn [injector1].
      rewrite HT, Hr. specialize (IH n ltac:(lia)). destruct r as [out|]; simpl in IH; [|by rewrite IH]. destruct IH as (outs & E & <-). by rewrite E.
    - intros sc t T HT Hr. exists 1%nat. intros n Hn. destruct n as [|n]; [lia|]. cbn [injector1]. by rewrite HT, Hr.
    - intros sc t. by apply part1_empty, ev_all.
    - intros sc t k l a b _ IH1 _ IH2. pose proof (ev_and _ _ IH1 IH2) as Hb. revert Hb. apply ev_imp.
      intros n [(o1 & E1 & <-) (o2 & E2 & <-)]. exists (o1 ++ o2). cbn [map do_params1]. rewrite E1. cbn [obind]. rewrite E2. split; [done|apply concat_app].
    - intros sc t k l _. apply ev_imp. intros n E. simpl in *. by rewrite E.
    - intros sc t k l a _ IH1 _ IH2. pose proof (ev_and _ _ IH1 IH2) as Hb. revert Hb. apply ev_imp.
      intros n [(o1 & E1 & <-) E2]. simpl in *. rewrite E1. simpl. by rewrite E2.
    - intros sc. by apply part1_empty, ev_all.
    - intros sc t r _ H. by apply run_on1_ends.
    - intros sc t s. apply ev_all. intros n. exists [s]. split; [done|]. simpl. by rewrite app_nil_r.
    - intros sc t s. by apply part1_empty, ev_all.
    - intros sc t s g v Hg Hv. apply ev_all. intros n. exists [v]. split; [|simpl; by rewrite app_nil_r].
      assert (E : lget g s = v) by (unfold lget; by rewrite Hv).
      change (Ok (rev sc, match lg with Some l => [lget l s] | None => [] end) = Ok (rev sc, [v])). by rewrite Hg, E.
    - intros sc t s Hno. apply ev_all. intros n. simpl. destruct lg as [g|].
      + exists [[]]. split; [|done]. assert (E : lget g s = []) by (unfold lget; by rewrite (Hno g eq_refl)).
        change (Ok (rev sc, [lget g s]) = Ok (rev sc, [[]])). by rewrite E.
      + by exists [].
    - intros sc t s r H. apply text1_ev in H. revert H. apply ev_imp. intros n H.
      change (yields (d <-! stack_string1 F ord h n (reverse sc) s; Ok (rev (Some sc), [d])) (Some sc) r). rewrite H.
      destruct r as [out|]; simpl; [|done]. exists [out]. split; [done|]. simpl. by rewrite app_nil_r.
    - intros t s. by apply part1_empty, ev_all.
    - intros sc d t s out Hs H. apply dumps_ev in H. revert H. apply ev_imp. intros n H. exists [out].
      split; [|simpl; by rewrite app_nil_r]. rewrite dump_eq. unfold rev. cbn [fmap option_fmap option_map]. rewrite reverse_snoc.
      rewrite bool_decide_eq_true_2 by done. by rewrite H.
    - intros sc t s H1 H2. apply part1_empty, ev_all. intros n. rewrite dump_eq. destruct (rev sc) as [[|[d|] xs]|]; try done.
      rewrite bool_decide_eq_false_2 by tauto. done.
    - intros t s. by apply part1_empty, ev_all.
    - (* select *) intros sc t s a field prefix v q r Hs Hf Hc _ IH. apply text1_ev in Hf. eapply part1_imp; [|exact IH].
      revert Hf. apply ev_imp. intros n Hf. apply separated_split in Hs. rewrite reference_eq, Hs. cbn [do_reference1 rev fmap option_fmap option_map non_nil1].
      rewrite Hf. cbn [same obind]. by rewrite (names1 _ _ _ Hc).
    - intros sc t s a field prefix Hs Hf. apply text1_ev in Hf. apply part1_panic. revert Hf. apply ev_imp. intros n Hf.
      apply separated_split in Hs. rewrite reference_eq, Hs. cbn [do_reference1 rev fmap option_fmap option_map non_nil1]. by rewrite Hf.
    - intros t s a field prefix Hs. apply part1_panic, ev_all. intros n. apply separated_split in Hs. by rewrite reference_eq, Hs.
    - (* narrow *) intros sc t s a field x d r Hs Hv Hf Hd _ IH. apply name1 in Hv. apply found1_ev in Hf. eapply part1_imp; [|exact (run_in1_ends _ _ _ _ IH)].
      revert Hf. apply ev_imp. intros n Hf. apply separated_split in Hs. rewrite reference_eq, Hs. cbn [do_reference1 rev fmap option_fmap option_map non_nil1].
      rewrite Hv. cbn [obind]. rewrite Hf. cbn [same obind mbind option_bind]. by rewrite (dataset_as _ _ Hd).
    - (* keep *) intros sc t s a field x v r Hs Hv Hf Hno _ IH. apply name1 in Hv. apply found1_ev in Hf. eapply part1_imp; [|exact (run_on1_ends _ _ _ IH)].
      revert Hf. apply ev_imp. intros n Hf. apply separated_split in Hs. rewrite reference_eq, Hs. cbn [do_reference1 rev fmap option_fmap option_map non_nil1].
      rewrite Hv. cbn [obind]. rewrite Hf. cbn [same obind].
      assert (E : (v ≫= as_dataset h) = None) by (destruct v as [v|]; [|done]; apply no_dataset_as; intros l ->; by apply Hno). by rewrite E.
    - intros sc t s a field x Hs Hv Hf. apply name1 in Hv. apply found1_ev in Hf. apply part1_panic.
      revert Hf. apply ev_imp. intros n Hf. apply separated_split in Hs. rewrite reference_eq, Hs. cbn [do_reference1 rev fmap option_fmap option_map non_nil1].
      rewrite Hv. cbn [obind]. by rewrite Hf.
    - intros t s a field x Hs Hv. apply name1 in Hv. apply part1_panic, ev_all. intros n. apply separated_split in Hs. rewrite reference_eq, Hs.
      cbn [do_reference1]. by rewrite Hv.
    - (* plain *) intros sc t s a ws x r Hs L1 L2 Hv _ IH. apply name1 in Hv. eapply part1_imp; [|exact (run_on1_ends _ _ _ IH)].
      apply ev_all. intros n. apply separated_split in Hs. rewrite reference_eq, Hs.
      destruct ws as [|w1 [|w2 [|w3 ws]]]; try done; cbn [do_reference1]; by rewrite Hv.
    - intros sc t s a ws Hs L2 Hv. apply name1 in Hv. apply part1_empty, ev_all. intros n. apply separated_split in Hs. rewrite reference_eq, Hs.
      destruct ws as [|w1 [|w2 [|w3 ws]]]; try done; cbn [do_reference1]; by rewrite Hv.
    - (* range *) intros sc t s d b x c xs r Hs Hv Hf Hc _ IH. apply name1 in Hv. apply found1_ev in Hf. specialize (IH c xs Hc eq_refl eq_refl).
      pose proof (ev_and _ _ Hf IH) as [n0 Hb]. exists (n0 `max` S (length xs))%nat. intros n Hn.
      destruct (Hb n) as (H2 & H3); [lia|]. specialize (H3 n ltac:(lia)). rewrite range_eq. unfold do_range1.
      rewrite (proj2 (two_ids_spec s d b) Hs), Hv. cbn [obind rev fmap option_fmap option_map]. unfold stack_collection1. rewrite H2. cbn [same obind].
      rewrite (proj2 (as_collection_some h (VRef c) c)) by eauto. exact H3.
    - intros sc t s d b x q r Hs Hv Hf Hq _ IH. apply name1 in Hv. apply none1 in Hq. apply found1_ev in Hf. eapply part1_imp; [|exact (run_on1_ends _ _ _ IH)].
      revert Hf. apply ev_imp. intros n Hf. rewrite range_eq. unfold do_range1. rewrite (proj2 (two_ids_spec s d b) Hs), Hv.
      cbn [obind rev fmap option_fmap option_map]. unfold stack_collection1. rewrite Hf. cbn [same obind]. by rewrite Hq.
    - intros sc t s d b x v Hs Hv Hf Hno. apply name1 in Hv. apply found1_ev in Hf. apply part1_panic.
      revert Hf. apply ev_imp. intros n Hf. rewrite range_eq. unfold do_range1. rewrite (proj2 (two_ids_spec s d b) Hs), Hv.
      cbn [obind rev fmap option_fmap option_map]. unfold stack_collection1. rewrite Hf. cbn [same obind].
      destruct (as_collection h v) as [c|] eqn:E; [|done]. apply as_collection_some in E as (-> & cs & Hcs). by destruct (Hno c cs).
    - intros sc t s d b x Hs Hv Hf. apply name1 in Hv. apply found1_ev in Hf. apply part1_panic.
      revert Hf. apply ev_imp. intros n Hf. rewrite range_eq. unfold do_range1. rewrite (proj2 (two_ids_spec s d b) Hs), Hv.
      cbn [obind rev fmap option_fmap option_map]. unfold stack_collection1. by rewrite Hf.
    - intros sc t s d b Hs Hv. apply name1 in Hv. apply part1_empty, ev_all. intros n. rewrite range_eq. unfold do_range1. rewrite (proj2 (two_ids_spec s d b) Hs), Hv. done.
    - intros t s d b q Hs Hv. apply name1 in Hv. apply part1_empty, ev_all. intros n. rewrite range_eq. unfold do_range1. rewrite (proj2 (two_ids_spec s d b) Hs), Hv. by destruct q.
    - (* condition *) intros sc t s d b x v w q r Hs Hv Hf Hnn Hno Hw Hwn Hq _ IH. apply name1 in Hv, Hq. apply found1_ev in Hf. apply prints_ev in Hw.
      eapply part1_imp; [|exact (run_on1_ends _ _ _ IH)]. pose proof (ev_and _ _ Hf Hw) as Hb. revert Hb. apply ev_imp. intros n [H1 H2].
      rewrite cond_eq. unfold do_condition1. rewrite (proj2 (two_ids_spec s d b) Hs), Hv. cbn [obind rev fmap option_fmap option_map]. rewrite H1. cbn [same obind].
      assert (En : is_nil v = false) by (by destruct v). rewrite En, (no_dataset_as _ _ Hno), H2. cbn [obind].
      destruct w as [|c w]; [done|]. change dot with dotted. by rewrite Hq.
    - intros sc t s d b x v Hs Hv Hf Hnn Hno Hw. apply name1 in Hv. apply found1_ev in Hf. apply prints_ev in Hw. apply part1_empty.
      pose proof (ev_and _ _ Hf Hw) as Hb. revert Hb. apply ev_imp. intros n [H1 H2].
      rewrite cond_eq. unfold do_condition1. rewrite (proj2 (two_ids_spec s d b) Hs), Hv. cbn [obind rev fmap option_fmap option_map]. rewrite H1. cbn [same obind].
      assert (En : is_nil v = false) by (by destruct v). by rewrite En, (no_dataset_as _ _ Hno), H2.
    - intros sc t s d b x v Hs Hv Hf Hd. apply name1 in Hv. apply found1_ev in Hf. apply part1_empty. revert Hf. apply ev_imp. intros n H1.
      rewrite cond_eq. unfold do_condition1. rewrite (proj2 (two_ids_spec s d b) Hs), Hv. cbn [obind rev fmap option_fmap option_map]. rewrite H1. cbn [same obind is_nil].
      rewrite (dataset_as _ _ Hd). cbn [spush1 non_nil1 obind]. by rewrite spop1_push.
    - intros sc t s d b q v Hs Hv Hf Hvv. apply name1 in Hv. apply found1_ev in Hf. apply part1_empty. revert Hf. apply ev_imp. intros n H1.
      rewrite cond_eq. unfold do_condition1. rewrite (proj2 (two_ids_spec s d b) Hs), Hv. cbn [obind rev fmap option_fmap option_map]. rewrite H1. cbn [same obind is_nil].
      destruct q; [|done]. by destruct Hvv as [->| ->].
    - intros sc t s d b v Hs Hv Hf. apply name1 in Hv. apply found1_ev in Hf. apply part1_empty. revert Hf. apply ev_imp. intros n H1.
      rewrite cond_eq. unfold do_condition1. rewrite (proj2 (two_ids_spec s d b) Hs), Hv. cbn [obind rev fmap option_fmap option_map]. by rewrite H1.
    - intros sc t s d b q Hs Hv Hf. apply name1 in Hv. apply found1_ev in Hf. apply part1_panic. revert Hf. apply ev_imp. intros n H1.
      rewrite cond_eq. unfold do_condition1. rewrite (proj2 (two_ids_spec s d b) Hs), Hv. cbn [obind rev fmap option_fmap option_map]. by rewrite H1.
    - intros t s d b q Hs Hv. apply name1 in Hv. apply part1_empty, ev_all. intros n. rewrite cond_eq. unfold do_condition1.
      rewrite (proj2 (two_ids_spec s d b) Hs), Hv. by destruct q.
    - (* loop *) intros sc t b x i n cl cs Hc Hd ->. apply ev_all. intros m k Hk. exists []. split; [|done].
      destruct k as [|k]; [lia|]. cbn [do_loop1]. unfold ccount. rewrite (proj2 (elements_some h cl cs) Hc). cbn [obind].
      assert (length (drop i cs) = 0%nat) as Hl by (by rewrite Hd). rewrite drop_length in Hl.
      rewrite bool_decide_eq_false_2 by lia. done.
    - intros sc t b x i n e es q o1 o2 Hq _ IH1 _ IH2 cl cs Hc Hd ->. apply run_in1_ends in IH1.
      specialize (IH2 cl cs Hc (drop_next _ _ _ _ Hd) eq_refl). pose proof (ev_and _ _ IH1 IH2) as Hb. revert Hb. apply ev_imp.
      intros m [H1 H2] k Hk. cbn [length] in Hk. destruct k as [|k]; [lia|]. destruct (H2 k ltac:(lia)) as (outs2 & E2 & <-).
      destruct (loop1_step _ _ _ _ _ _ _ _ _ _ _ _ k Hq Hc Hd H1) as (outs & <- & E). exists (outs ++ outs2). rewrite E, E2. split; [done|apply concat_app].
    - intros sc t b x i n e es q Hq _ IH1 cl cs Hc Hd ->. apply run_in1_ends in IH1. revert IH1. apply ev_imp.
      intros m H1 k Hk. destruct k as [|k]; [lia|]. destruct (loop1_step _ _ _ _ _ _ _ _ _ _ _ _ k Hq Hc Hd H1) as (outs & _ & E). by rewrite E.
    - intros sc t b x i n e es q o1 Hq _ IH1 _ IH2 cl cs Hc Hd ->. apply run_in1_ends in IH1.
      specialize (IH2 cl cs Hc (drop_next _ _ _ _ Hd) eq_refl). pose proof (ev_and _ _ IH1 IH2) as Hb. revert Hb. apply ev_imp.
      intros m [H1 H2] k Hk. cbn [length] in Hk. destruct k as [|k]; [lia|]. specialize (H2 k ltac:(lia)). cbn [yields] in H2.
      destruct (loop1_step _ _ _ _ _ _ _ _ _ _ _ _ k Hq Hc Hd H1) as (outs & _ & E). rewrite E, H2. done.
  Qed.
End Complete1.
