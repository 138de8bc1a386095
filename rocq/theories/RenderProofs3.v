(** * Everything the relation describes is an execution. *)
From Verif Require Import GoBase GoStrings GoStringsProofs Regex DatasetModel LangModel DatasetSpec DatasetProofs DatasetProofs2 DatasetProofs3
  DatasetProofs5 TemplateModel TemplateSpec TemplateProofs2 TemplateProofs3 TemplateProofs4 TemplateProofs5 TemplateProofs6
  RenderSpec RenderProofs RenderProofs2.
Local Open Scope Z_scope.

Definition ev (P : nat -> Prop) : Prop := exists n0, forall n, (n0 <= n)%nat -> P n.
Lemma ev_and (P Q : nat -> Prop) : ev P -> ev Q -> ev (fun n => P n /\ Q n).
Proof. intros [a Ha] [b Hb]. exists (a `max` b)%nat. intros n Hn. split; [apply Ha|apply Hb]; lia. Qed.
Lemma ev_imp (P Q : nat -> Prop) : (forall n, P n -> Q n) -> ev P -> ev Q.
Proof. intros H [a Ha]. exists a. intros n Hn. by apply H, Ha. Qed.
Lemma ev_all (P : nat -> Prop) : (forall n, P n) -> ev P.
Proof. intros H. by exists 0%nat. Qed.

Lemma visible_ev th t name r : visible th t name r -> ev (fun n => lookup_template th n t name = Ok r).
Proof. intros [n H]%get_template_visible. exists n. intros m Hm. by apply (get_template_up th n m). Qed.
Lemma choose_ev th t ns r : choose th t ns r -> ev (fun n => try_names th n t ns = Ok r).
Proof. intros [n H]%choose_names. exists n. intros m Hm. by apply (try_names_up th n m). Qed.
Lemma found_ev h sc key r : found h sc key r -> ev (fun n => stack_data n h (reverse sc) key = Ok r).
Proof. unfold stack_data. rewrite reverse_involutive. intros [n H]%found_search. exists n. intros m Hm. by apply (search_up n m). Qed.
Lemma prints_ev F ord h v s : prints F ord h v s -> ev (fun n => sprint F ord n h v = Ok s).
Proof. intros [n H]. exists n. intros m Hm. by apply (sprint_mono F ord n m). Qed.
Lemma dumps_ev F ord h d s : dumps F ord h d s -> ev (fun n => show F ord n h true d = Ok s).
Proof. intros [n H]. exists n. intros m Hm. by apply (show_mono F ord n m). Qed.
Lemma field_text_ev F ord h sc key s : field_text F ord h sc key s -> ev (fun n => stack_string F ord n h (reverse sc) key = Ok s).
Proof.
  unfold stack_string. intros [H|H|v s' H Hv Hp]; apply found_ev in H.
  - revert H. apply ev_imp. intros n H. by rewrite H.
  - revert H. apply ev_imp. intros n H. by rewrite H.
  - apply prints_ev in Hp. pose proof (ev_and _ _ H Hp) as Hb. revert Hb. apply ev_imp. intros n [H1 H2]. rewrite H1. simpl. by destruct v.
Qed.
Lemma counts_ev h d i h1 : counts h d i h1 -> ev (fun n => dset n h d (B ".counter") (VInt KInt (Z.of_nat i + 1)) = Ok h1).
Proof.
  intros (x & m & Hi & ->). assert (H : exists n, dset n h d (B ".counter") (VInt KInt (Z.of_nat i + 1)) =
    Ok (<[x:=ODs (<[B ".counter" := VInt KInt (Z.of_nat i + 1)]> m)]> h)).
  { unfold dset. induction Hi as [l m H|l d t m H _ [n IH]].
    - exists 1%nat. simpl. by rewrite H.
    - exists (S n). simpl. by rewrite H. }
  destruct H as [n H]. exists n. intros k Hk. rewrite <- H. apply dset_mono; [done|]. by rewrite H.
Qed.
Lemma dataset_as h d : dataset_at h d -> as_dataset h (VRef d) = Some d.
Proof. intros H. by apply as_dataset_some. Qed.
Lemma no_dataset_as h v : (forall l, v = VRef l -> ~ dataset_at h l) -> as_dataset h v = None.
Proof. intros H. destruct (as_dataset h v) as [d|] eqn:E; [|done]. apply as_dataset_some in E as [-> Hd]. by destruct (H d eq_refl). Qed.
Lemma or_else_match r x : or_else r x = match r with Some y => y | None => x end.
Proof. done. Qed.

Section Complete.
  Context (F : golib) (ord : heap -> gmap bytes value -> list (bytes * value)) (th : theap) (lg : option lang).
  Notation run n := (injector F ord th n lg).
  Definition ends h sc t h' out : Prop := ev (fun n => run n (h, Some (reverse sc)) t = Ok ((h', Some (reverse sc)), out)).
  Definition part_ends (f : nat -> outcome (heap * option (list loc) * list bytes)) h' sc out : Prop :=
    ev (fun n => exists outs, f n = Ok ((h', Some (reverse sc)), outs) /\ concat outs = out).
  Lemma ends_inner {A} h d sc t h' out (k : heap * option (list loc) -> bytes -> option (list loc) -> outcome A) n :
    run n (h, Some (reverse (d :: sc))) t = Ok ((h', Some (reverse (d :: sc))), out) ->
    (sc1 <-! spush (Some (reverse sc)) d; '(st2, o) <-! run n (h, sc1) t; sc3 <-! spop st2.2; k st2 o sc3)
    = k (h', Some (reverse sc ++ [d])) out (Some (reverse sc)).
  Proof.
    rewrite reverse_cons. intros H. cbn [spush non_nil obind]. rewrite H. cbn [obind fst snd]. by rewrite spop_push.
  Qed.
  Lemma renders_complete :
    (forall h sc t h' out, renders F ord th lg h sc t h' out -> ends h sc t h' out) /\
    (forall h sc t l h' out, renders_all F ord th lg h sc t l h' out ->
       part_ends (fun n => do_params F ord th n lg (run n) (h, Some (reverse sc)) t (map stored l)) h' sc out) /\
    (forall h sc t h' out, renders_opt F ord th lg h sc t h' out -> part_ends (fun n => run_opt (run n) (h, Some (reverse sc)) t) h' sc out) /\
    (forall h sc t k h' out, renders_one F ord th lg h sc t k h' out ->
       part_ends (fun n => do_param F ord th n lg (run n) (h, Some (reverse sc)) t (stored k)) h' sc out) /\
    (forall h sc t b x i n ds h' out, loops F ord th lg h sc t b x i n ds h' out ->
       forall cl cs, collection_at h cl cs -> drop i cs = ds -> n = length cs ->
       ev (fun n => forall k, (length ds < k)%nat -> exists outs,
         do_loop th n (run n) k (Z.of_nat i) (h, Some (reverse sc)) t b x cl = Ok ((h', Some (reverse sc)), outs) /\ concat outs = out)).
  Proof.
    apply renders_mutind; unfold ends, part_ends.
    - (* root *) intros h sc t T l h' out HT Hr _ [n0 IH]. exists (S n0). intros n Hn. destruct n as [|n]; [lia|]. cbn [injector].
      rewrite HT, Hr. destruct (IH n) as (outs & E & <-); [lia|]. by rewrite E.
    - intros h sc t T HT Hr. exists 1%nat. intros n Hn. destruct n as [|n]; [lia|]. cbn [injector]. by rewrite HT, Hr.
    - intros h sc t. apply ev_all. intros n. by exists [].
    - intros h sc t k l h1 h2 a b _ IH1 _ IH2. pose proof (ev_and _ _ IH1 IH2) as Hb. revert Hb. apply ev_imp.
      intros n [(o1 & E1 & <-) (o2 & E2 & <-)]. exists (o1 ++ o2). cbn [map do_params]. rewrite E1. cbn [obind]. rewrite E2. split; [done|apply concat_app].
    - intros h sc. apply ev_all. intros n. by exists [].
    - intros h sc t h' out _. apply ev_imp. intros n H. exists [out]. cbn [run_opt]. unfold run_on. rewrite H. split; [done|]. simpl. by rewrite app_nil_r.
    - intros h sc t s. apply ev_all. intros n. exists [s]. split; [done|]. simpl. by rewrite app_nil_r.
    - intros h sc t s. apply ev_all. intros n. by exists [].
    - intros h sc t s g v Hg Hv. apply ev_all. intros n. exists [v]. split; [|simpl; by rewrite app_nil_r].
      assert (E : lget g s = v) by (unfold lget; by rewrite Hv).
      change (Ok ((h, Some (reverse sc)), match lg with Some l => [lget l s] | None => [] end) = Ok ((h, Some (reverse sc)), [v])). by rewrite Hg, E.
    - intros h sc t s Hno. apply ev_all. intros n. destruct lg as [g|].
      + exists [[]]. split; [|done]. assert (E : lget g s = []) by (unfold lget; by rewrite (Hno g eq_refl)).
        change (Ok ((h, Some (reverse sc)), [lget g s]) = Ok ((h, Some (reverse sc)), [[]])). by rewrite E.
      + by exists [].
    - intros h sc t s out H. apply field_text_ev in H. revert H. apply ev_imp. intros n H. exists [out].
      split; [|simpl; by rewrite app_nil_r].
      change ((d <-! stack_string F ord n h (reverse sc) s; Ok ((h, Some (reverse sc)), [d])) = Ok ((h, Some (reverse sc)), [out])). by rewrite H.
    - intros h sc d t s out Hs H. apply dumps_ev in H. revert H. apply ev_imp. intros n H. exists [out].
      split; [|simpl; by rewrite app_nil_r]. rewrite reverse_snoc. unfold do_param. cbn [stored p_data p_type fst snd].
      repeat (rewrite bool_decide_eq_false_2 by done). rewrite bool_decide_eq_true_2 by done.
      rewrite bool_decide_eq_true_2 by done. by rewrite H.
    - intros h sc t s H1 H2. apply ev_all. intros n. exists []. split; [|done]. unfold do_param. cbn [stored p_data p_type fst snd].
      repeat (rewrite bool_decide_eq_false_2 by done). rewrite bool_decide_eq_true_2 by done.
      destruct (reverse sc) as [|d xs]; [done|]. rewrite bool_decide_eq_false_2 by tauto. done.
    - (* select *) intros h sc t s a field prefix v r h' out Hs Hf Hc _ IH. apply field_text_ev in Hf. apply choose_ev in Hc.
      pose proof (ev_and _ _ Hf (ev_and _ _ Hc IH)) as Hb. revert Hb. apply ev_imp. intros n (H1 & H2 & outs & H3 & H4).
      exists outs. split; [|done]. apply separated_split in Hs.
      change (do_reference F ord th n (run n) (h, Some (reverse sc)) t (split_on ":"%char s) = Ok ((h', Some (reverse sc)), outs)).
      rewrite Hs. cbn [do_reference fst snd non_nil]. rewrite H1. cbn [obind]. rewrite H2. done.
    - (* narrow *) intros h sc t s a field x d h' out Hs Hv Hf Hd _ IH. apply visible_ev in Hv. apply found_ev in Hf.
      pose proof (ev_and _ _ Hv (ev_and _ _ Hf IH)) as Hb. revert Hb. apply ev_imp. intros n (H1 & H2 & H3).
      exists [out]. split; [|simpl; by rewrite app_nil_r]. apply separated_split in Hs.
      change (do_reference F ord th n (run n) (h, Some (reverse sc)) t (split_on ":"%char s) = Ok ((h', Some (reverse sc)), [out])).
      rewrite Hs. cbn [do_reference]. rewrite H1. cbn [obind fst snd non_nil]. rewrite H2. cbn [obind mbind option_bind].
      rewrite (dataset_as _ _ Hd). by rewrite (ends_inner h d sc x h' out (fun st2 o sc3 => Ok ((st2.1, sc3), [o]))).
    - (* keep *) intros h sc t s a field x r h' out Hs Hv Hf Hno _ IH. apply visible_ev in Hv. apply found_ev in Hf.
      pose proof (ev_and _ _ Hv (ev_and _ _ Hf IH)) as Hb. revert Hb. apply ev_imp. intros n (H1 & H2 & H3).
      exists [out]. split; [|simpl; by rewrite app_nil_r]. apply separated_split in Hs.
      change (do_reference F ord th n (run n) (h, Some (reverse sc)) t (split_on ":"%char s) = Ok ((h', Some (reverse sc)), [out])).
      rewrite Hs. cbn [do_reference]. rewrite H1. cbn [obind fst snd non_nil]. rewrite H2. cbn [obind].
      assert (E : (r ≫= as_dataset h) = None) by (destruct r as [v|]; [|done]; apply no_dataset_as; intros l ->; by apply Hno).
      rewrite E. unfold run_on. by rewrite H3.
    - (* plain *) intros h sc t s a ws x h' out Hs L1 L2 Hv _ IH. apply visible_ev in Hv.
      pose proof (ev_and _ _ Hv IH) as Hb. revert Hb. apply ev_imp. intros n (H1 & H3).
      exists [out]. split; [|simpl; by rewrite app_nil_r]. apply separated_split in Hs.
      change (do_reference F ord th n (run n) (h, Some (reverse sc)) t (split_on ":"%char s) = Ok ((h', Some (reverse sc)), [out])).
      rewrite Hs. destruct ws as [|w1 [|w2 [|w3 ws]]]; try done; cbn [do_reference]; rewrite H1; cbn [obind]; unfold run_on; by rewrite H3.
    - intros h sc t s a ws Hs L2 Hv. apply visible_ev in Hv. revert Hv. apply ev_imp. intros n H1.
      exists []. split; [|done]. apply separated_split in Hs.
      change (do_reference F ord th n (run n) (h, Some (reverse sc)) t (split_on ":"%char s) = Ok ((h, Some (reverse sc)), [])).
      rewrite Hs. destruct ws as [|w1 [|w2 [|w3 ws]]]; try done; cbn [do_reference]; by rewrite H1.
    - (* range *) intros h sc t s d b x c xs h' out Hs Hv Hf Hc Hne _ IH. apply visible_ev in Hv. apply found_ev in Hf.
      specialize (IH c xs Hc eq_refl eq_refl).
      pose proof (ev_and _ _ Hv (ev_and _ _ Hf IH)) as [n0 Hb]. exists (n0 `max` S (length xs))%nat. intros n Hn.
      destruct (Hb n) as (H1 & H2 & H3); [lia|]. destruct (H3 n) as (outs & H4 & H5); [lia|]. exists outs. split; [|done].
      change (do_range th n (run n) (h, Some (reverse sc)) t s = Ok ((h', Some (reverse sc)), outs)).
      unfold do_range. rewrite (proj2 (two_ids_spec s d b) Hs). rewrite H1. cbn [obind fst snd]. unfold stack_collection. rewrite H2.
      cbn [obind mbind option_bind]. rewrite (proj2 (as_collection_some h (VRef c) c)) by eauto.
      assert (Hcc : ccount h c = Ok (Z.of_nat (length xs))) by (unfold ccount; by rewrite (proj2 (elements_some h c xs) Hc)).
      rewrite Hcc. cbn [obind]. rewrite bool_decide_eq_true_2; [done|]. destruct xs; [done|]. simpl. lia.
    - intros h sc t s d b x r q h' out Hs Hv Hf Hno Hq _ IH. apply visible_ev in Hv, Hq. apply found_ev in Hf.
      pose proof (ev_and _ _ Hv (ev_and _ _ Hq (ev_and _ _ Hf IH))) as Hb. revert Hb. apply ev_imp. intros n (H1 & H2 & H3 & H4).
      exists [out]. split; [|simpl; by rewrite app_nil_r].
      change (do_range th n (run n) (h, Some (reverse sc)) t s = Ok ((h', Some (reverse sc)), [out])).
      unfold do_range. rewrite (proj2 (two_ids_spec s d b) Hs). rewrite H1. cbn [obind fst snd]. unfold stack_collection. rewrite H3. cbn [obind].
      assert (Hr : (tmp <-! try_names th n t [dot b (B "none")]; run_on (run n) (h, Some (reverse sc)) (match tmp with Some x => x | None => x end))
        = Ok ((h', Some (reverse sc)), [out])).
      { cbn [try_names]. change (dot b (B "none")) with (dotted b (B "none")). rewrite H2. cbn [obind]. unfold run_on. destruct q; cbn [obind or_else] in *; by rewrite H4. }
      destruct (r ≫= as_collection h) as [l|] eqn:El; cbn [obind]; [|exact Hr].
      destruct r as [v|]; [|done]. simpl in El. apply as_collection_some in El as [-> [cs Hcs]].
      unfold ccount. rewrite (proj2 (elements_some h l cs) Hcs). cbn [obind]. rewrite (Hno l cs eq_refl Hcs). simpl. exact Hr.
    - intros h sc t s d b Hs Hv. apply visible_ev in Hv. revert Hv. apply ev_imp. intros n H1. exists []. split; [|done].
      change (do_range th n (run n) (h, Some (reverse sc)) t s = Ok ((h, Some (reverse sc)), [])).
      unfold do_range. rewrite (proj2 (two_ids_spec s d b) Hs). by rewrite H1.
    - (* condition on a dataset *) intros h sc t s d b x v q h' out u Hs Hv Hf Hd Hq _ IH Hp. apply visible_ev in Hv, Hq. apply found_ev in Hf.
      pose proof Hp as Hp'. apply prints_ev in Hp.
      pose proof (ev_and _ _ Hv (ev_and _ _ Hq (ev_and _ _ Hf (ev_and _ _ IH Hp)))) as Hb. revert Hb. apply ev_imp. intros n (H1 & H2 & H3 & H4 & H5).
      exists [out]. split; [|simpl; by rewrite app_nil_r].
      change (do_condition F ord th n (run n) (h, Some (reverse sc)) t s = Ok ((h', Some (reverse sc)), [out])).
      unfold do_condition. rewrite (proj2 (two_ids_spec s d b) Hs). rewrite H1. cbn [obind fst snd]. rewrite H3. cbn [obind is_nil].
      rewrite (dataset_as _ _ Hd). cbn [spush non_nil obind]. change (dot b (B "array")) with (dotted b (B "array")). rewrite H2. cbn [obind].
      rewrite reverse_cons in H4. unfold or_else in H4. rewrite H4. cbn [obind fst snd]. rewrite spop_push. cbn [obind fst snd]. rewrite H5. cbn [obind].
      destruct u as [|c u]; [|done]. by destruct (object_text F ord _ _ _ _ H5).
    - (* condition on a value *) intros h sc t s d b x v w q h' out u Hs Hv Hf Hnn Hno Hw Hwn Hq _ IH Hp. apply visible_ev in Hv, Hq. apply found_ev in Hf.
      apply prints_ev in Hw, Hp.
      pose proof (ev_and _ _ Hv (ev_and _ _ Hq (ev_and _ _ Hf (ev_and _ _ IH (ev_and _ _ Hw Hp))))) as Hb. revert Hb. apply ev_imp. intros n (H1 & H2 & H3 & H4 & H5 & H6).
      exists [out]. split; [|simpl; by rewrite app_nil_r].
      change (do_condition F ord th n (run n) (h, Some (reverse sc)) t s = Ok ((h', Some (reverse sc)), [out])).
      unfold do_condition. rewrite (proj2 (two_ids_spec s d b) Hs). rewrite H1. cbn [obind fst snd]. rewrite H3. cbn [obind].
      assert (En : is_nil v = false) by (by destruct v). rewrite En, (no_dataset_as _ _ Hno), H5. cbn [obind].
      assert (Hu : u <> []).
      { assert (Hr : (exists l, v = VRef l) \/ forall l, v <> VRef l) by (destruct v; eauto).
        destruct Hr as [[l ->]|Hr]; [by eapply object_text|].
        pose proof (plain_sprint F ord h h' v _ n n Hr H5) as Hw'. rewrite Hw' in H6. by injection H6 as <-. }
      destruct w as [|c w]; [done|]. change (dot b (c :: w)) with (dotted b (c :: w)). rewrite H2. cbn [obind].
      unfold or_else in H4. rewrite H4. cbn [obind fst snd]. rewrite H6. cbn [obind]. by destruct u.
    - intros h sc t s d b v w Hs Hv Hf Hnn Hw Hwn. apply visible_ev in Hv. apply found_ev in Hf. apply prints_ev in Hw.
      pose proof (ev_and _ _ Hv (ev_and _ _ Hf Hw)) as Hb. revert Hb. apply ev_imp. intros n (H1 & H2 & H3).
      exists []. split; [|done].
      change (do_condition F ord th n (run n) (h, Some (reverse sc)) t s = Ok ((h, Some (reverse sc)), [])).
      unfold do_condition. rewrite (proj2 (two_ids_spec s d b) Hs). rewrite H1. cbn [obind fst snd]. rewrite H2. cbn [obind].
      assert (En : is_nil v = false) by (by destruct v). rewrite En. cbn [fst]. rewrite H3. cbn [obind]. by destruct w.
    - (* blank *) intros h sc t s d b r p q h' out Hs Hv Hf Hbl Hq _ IH. apply visible_ev in Hv, Hq. apply found_ev in Hf.
      assert (Hb : ev (fun n => r = None \/ r = Some VNil \/ exists v, r = Some v /\ v <> VNil /\ sprint F ord n h v = Ok [])).
      { destruct Hbl as [| |v Hv' Hp]; [by apply ev_all; left|by apply ev_all; right; left|]. apply prints_ev in Hp. revert Hp. apply ev_imp.
        intros n Hn. right. right. by exists v. }
      pose proof (ev_and _ _ Hv (ev_and _ _ Hq (ev_and _ _ Hf (ev_and _ _ IH Hb)))) as Hall. revert Hall. apply ev_imp.
      intros n (H1 & H2 & H3 & (outs & H4 & H5) & H6). exists outs. split; [|done].
      change (do_condition F ord th n (run n) (h, Some (reverse sc)) t s = Ok ((h', Some (reverse sc)), outs)).
      unfold do_condition. rewrite (proj2 (two_ids_spec s d b) Hs). rewrite H1. cbn [obind fst snd]. rewrite H3. cbn [obind].
      change (dot b (B "none")) with (dotted b (B "none")).
      destruct H6 as [->|[->|(v & -> & Hnn & H6)]].
      + cbn [is_nil]. destruct p; cbn [obind]; rewrite H2; cbn [obind]; rewrite H4; done.
      + cbn [is_nil]. destruct p; cbn [obind]; rewrite H2; cbn [obind]; rewrite H4; done.
      + assert (En : is_nil v = false) by (by destruct v). rewrite En.
        destruct p as [x|].
        * destruct (as_dataset h v) as [l|] eqn:Ed.
          { apply as_dataset_some in Ed as [-> _]. by destruct (object_text F ord _ _ _ _ H6). }
          rewrite H6. cbn [obind fst]. rewrite H6. cbn [obind]. rewrite H2; cbn [obind]; rewrite H4; done.
        * cbn [obind fst]. rewrite H6. cbn [obind]. rewrite H2; cbn [obind]; rewrite H4; done.
    - (* loop end *) intros h sc t b x i n cl cs Hc Hd ->. apply ev_all. intros m k Hk. exists []. split; [|done].
      destruct k as [|k]; [lia|]. cbn [do_loop fst]. unfold ccount. rewrite (proj2 (elements_some h cl cs) Hc). cbn [obind].
      assert (length (drop i cs) = 0%nat) as Hl by (by rewrite Hd). rewrite drop_length in Hl.
      rewrite bool_decide_eq_false_2 by lia. done.
    - intros h sc t b x i n d ds q h1 h2 h3 o1 o2 Hq Hcnt Hr IH1 _ IH2 cl cs Hc Hd ->.
      assert (Hi : cs !! i = Some (Some d)) by (replace i with (i + 0)%nat by lia; rewrite <- lookup_drop, Hd; done).
      assert (C1 : counted h h1) by (by eapply counts_counted).
      assert (C2 : counted h h2) by (eapply counted_trans; [exact C1|]; exact (proj1 (renders_counted _ _ _ _) _ _ _ _ _ Hr)).
      assert (Hds : drop (S i) cs = ds) by (rewrite (drop_S cs (Some d) i Hi) in Hd; by injection Hd).
      specialize (IH2 cl cs (proj1 (counted_collection h h2 cl cs C2) Hc) Hds eq_refl).
      apply choose_ev in Hq. apply counts_ev in Hcnt.
      pose proof (ev_and _ _ Hq (ev_and _ _ Hcnt (ev_and _ _ IH1 IH2))) as Hall. revert Hall. apply ev_imp.
      intros m (H1 & H2 & H3 & H4) k Hk. destruct k as [|k]; [lia|]. cbn [length] in Hk. destruct (H4 k) as (outs & H5 & <-); [lia|].
      exists (o1 :: outs). split; [|done]. cbn [do_loop fst]. unfold ccount.
      rewrite (proj2 (elements_some h cl cs) Hc). cbn [obind].
      pose proof (lookup_lt_Some _ _ _ Hi) as Hlt. rewrite bool_decide_eq_true_2 by lia.
      rewrite element_names_eq by lia. rewrite Nat2Z.id, H1. cbn [obind].
      assert (Hg : cget h cl (Z.of_nat i) = Ok (Some (Some d))).
      { unfold cget. rewrite (proj2 (elements_some h cl cs) Hc). rewrite bool_decide_eq_false_2 by lia. cbn [orb].
        rewrite bool_decide_eq_false_2 by lia. by rewrite Nat2Z.id, Hi. }
      rewrite Hg. cbn [obind]. rewrite H2. cbn [obind snd]. unfold or_else in H3.
      rewrite (ends_inner h1 d sc _ h2 o1 (fun st2 out sc3 => '(st4, outs) <-! do_loop th m (run m) k (Z.of_nat i + 1) (st2.1, sc3) t b x cl; Ok (st4, out :: outs))) by exact H3.
      cbn [fst]. replace (Z.of_nat i + 1) with (Z.of_nat (S i)) by lia. by rewrite H5.
  Qed.
End Complete.
