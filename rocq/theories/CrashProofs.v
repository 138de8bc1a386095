(** * Executions that panic. *)
From Verif Require Import GoBase GoStrings GoStringsProofs Regex DatasetModel LangModel DatasetSpec DatasetProofs DatasetProofs2 DatasetProofs3
  DatasetProofs5 TemplateModel TemplateSpec TemplateProofs2 TemplateProofs3 TemplateProofs4 TemplateProofs5 TemplateProofs6
  RenderSpec RenderProofs RenderProofs2 RenderProofs3 RenderProofs4 RenderProofs5 RenderProofs6 RenderProofs7 CrashSpec.
Local Open Scope Z_scope.

Lemma try_names_ok th n t ns : closed th -> is_Some (th !! t) -> try_names th n t ns <> Panic.
Proof.
  intros Hc Ht. induction ns as [|x ns IH]; cbn [try_names]; [done|]. intros H.
  apply obind_panic in H as [H|(r & _ & H)]; [by apply closed_lookup in H|]. by destruct r.
Qed.
Lemma search_ok n h xs key : wf h -> Forall (dataset_at h) xs -> search n h (map Some xs) key <> Panic.
Proof.
  intros Hw. induction 1 as [|d xs Hd _ IH]; simpl; [done|]. intros H. apply obind_panic in H as [H|(r & _ & H)].
  - by apply get_no_panic in H.
  - by destruct r.
Qed.
Lemma chain_set_ok n h d k v : chain h d -> dset n h d k v <> Panic.
Proof. unfold dset. intros Hc. revert n. induction Hc as [l m E|l d E _ IH]; intros [|n]; simpl; try done; rewrite E; [done|]. apply IH. Qed.

Section Crash.
  Context (F : golib) (ord : heap -> gmap bytes value -> list (bytes * value)) (th : theap) (lg : option lang).
  Context (Hcomp : compiled th) (Hclosed : closed th).
  Notation run n := (injector F ord th n lg).
  Notation crashes := (crashes F ord th lg).
  Notation calls := (calls F ord th).
  Definition fits (h : heap) (xs : list loc) : Prop := wf h /\ xs <> [] /\ Forall (dataset_at h) xs.
  Lemma fits_push h xs d : fits h xs -> dataset_at h d -> fits h (xs ++ [d]).
  Proof. intros (H1 & H2 & H3) Hd. split; [done|]. split; [by destruct xs|]. apply Forall_app. split; [done|]. by constructor. Qed.
  Lemma fits_counted h h' xs : counted h h' -> fits h xs -> fits h' xs.
  Proof.
    intros Hc (H1 & H2 & H3). split; [by eapply counted_wf|]. split; [done|]. eapply Forall_impl; [exact H3|]. intros d. by apply (counted_dataset h h').
  Qed.
  Lemma fits_data n h xs key : fits h xs -> stack_data n h xs key <> Panic.
  Proof. intros (H1 & _ & H3). apply search_ok; [done|]. by apply Forall_reverse. Qed.
  Lemma fits_string n h xs key : fits h xs -> stack_string F ord n h xs key <> Panic.
  Proof.
    intros Hf H. apply obind_panic in H as [H|(r & _ & H)]; [by apply fits_data in H|].
    destruct r as [v|]; [|done]. pose proof (show_value_no_panic F (show F ord n h) false v) as Hn. unfold sprint in H. by destruct v.
  Qed.
  Section Body.
    Context (n : nat) (inj : heap * option (list loc) -> loc -> outcome (heap * option (list loc) * bytes)).
    Context (Hinj : forall h xs t st' out, xs <> [] -> inj (h, Some xs) t = Ok (st', out) ->
      exists h', st' = (h', Some xs) /\ renders F ord th lg h (reverse xs) t h' out).
    Context (Hpan : forall h xs t, fits h xs -> is_Some (th !! t) -> inj (h, Some xs) t = Panic -> crashes h (reverse xs) t).
    (** What a panic of one element is. *)
    Definition element_crashes (h : heap) (sc : list loc) (t : loc) (k : token) : Prop :=
      (exists sc' x, calls h sc t k sc' x /\ crashes h sc' x) \/
      exists b x xs i q h2 o2, loop_at th h sc t k b x xs /\ loops F ord th lg h sc t b x 0 (length xs) (take i xs) h2 o2 /\
        choose th t (element_names b i (length xs)) q /\
        (xs !! i = Some None \/ exists e h3, xs !! i = Some (Some e) /\ counts h2 e i h3 /\ crashes h3 (e :: sc) (or_else q x)).
    Lemma run_on_crash h xs t : fits h xs -> is_Some (th !! t) -> run_on inj (h, Some xs) t = Panic -> crashes h (reverse xs) t.
    Proof. intros Hf Ht H. apply obind_panic in H as [H|([st o] & _ & H)]; [by apply Hpan|done]. Qed.
    Lemma run_opt_crash h xs r : fits h xs -> (forall t, r = Some t -> is_Some (th !! t)) -> run_opt inj (h, Some xs) r = Panic ->
      exists t, r = Some t /\ crashes h (reverse xs) t.
    Proof. intros Hf Ht H. destruct r as [t|]; [|done]. exists t. split; [done|]. apply run_on_crash; [done|by apply Ht|done]. Qed.
    Lemma inner_crash {A} h xs d t (k : heap * option (list loc) -> bytes -> option (list loc) -> outcome A) : fits h xs -> dataset_at h d ->
      is_Some (th !! t) ->
      (sc1 <-! spush (Some xs) d; '(st2, out) <-! inj (h, sc1) t; sc3 <-! spop st2.2; k st2 out sc3) = Panic ->
      crashes h (d :: reverse xs) t \/
      exists h' out, renders F ord th lg h (d :: reverse xs) t h' out /\ k (h', Some (xs ++ [d])) out (Some xs) = Panic.
    Proof.
      intros Hf Hd Ht H. cbn [spush non_nil obind] in H. apply obind_panic in H as [H|([st2 out] & H1 & H2)].
      - left. apply Hpan in H; [|by apply fits_push|done]. by rewrite reverse_snoc in H.
      - right. apply Hinj in H1 as (h' & -> & H1); [|by destruct xs]. rewrite reverse_snoc in H1. cbn [fst snd] in H2.
        rewrite spop_push in H2. cbn [obind] in H2. by exists h', out.
    Qed.
    Lemma looked_up t a r : lookup_template th n t a = Ok r -> visible th t a r.
    Proof. intros H. apply get_template_visible. by exists n. Qed.
    Lemma reference_crash h xs t s : fits h xs -> is_Some (th !! t) ->
      do_reference F ord th n inj (h, Some xs) t (split_on ":"%char s) = Panic -> element_crashes h (reverse xs) t (TRef s).
    Proof.
      intros Hf Ht H. left. destruct (split_on ":"%char s) as [|a ws] eqn:E; [by apply split_on_nonempty in E|].
      apply separated_split in E.
      assert (Hgen : length ws <> 1%nat -> length ws <> 2%nat ->
        (r <-! lookup_template th n t a; match r with None => Ok ((h, Some xs), []) | Some subt => run_on inj (h, Some xs) subt end) = Panic ->
        exists sc' x, calls h (reverse xs) t (TRef s) sc' x /\ crashes h sc' x).
      { intros L1 L2 H0. apply obind_panic in H0 as [H0|(r & Hr & H0)]; [by apply closed_lookup in H0|].
        pose proof (looked_up _ _ _ Hr) as Hv. destruct r as [x|]; [|done].
        apply run_on_crash in H0; [|done|by eapply closed_visible]. exists (reverse xs), x. split; [by eapply cl_ref|done]. }
      unfold do_reference in H. destruct ws as [|field [|prefix [|e ws]]]; [by apply Hgen| | |by apply Hgen].
      - apply obind_panic in H as [H|(r & Hr & H)]; [by apply closed_lookup in H|]. pose proof (looked_up _ _ _ Hr) as Hv.
        destruct r as [x|]; [|done]. pose proof (closed_visible _ _ _ _ Hclosed Hv) as Hx.
        cbn [fst snd non_nil] in H. apply obind_panic in H as [H|(v & Hs & H)]; [by apply fits_data in H|].
        assert (Hfo : found h (reverse xs) field v) by (apply found_search; by exists n).
        destruct (v ≫= as_dataset h) as [d|] eqn:Ed.
        + destruct v as [v|]; [|done]. simpl in Ed. apply as_dataset_some in Ed as [-> Hd].
          apply (inner_crash h xs d x (fun st2 out sc3 => Ok ((st2.1, sc3), [out]))) in H as [H|(? & ? & _ & H)]; [|done..].
          exists (d :: reverse xs), x. split; [by eapply cl_narrow|done].
        + apply run_on_crash in H; [|done|done]. exists (reverse xs), x. split; [|done]. eapply cl_keep; try done. by apply not_dataset.
      - cbn [fst snd non_nil] in H. apply obind_panic in H as [H|(v & Hs & H)]; [by apply fits_string in H|].
        assert (Hft : field_text F ord h (reverse xs) field v) by (apply field_text_string; rewrite reverse_involutive; by exists n).
        apply obind_panic in H as [H|(r & Hr & H)]; [by apply try_names_ok in H|].
        assert (Hch : choose th t [prefix ++ v; prefix] r) by (apply choose_names; by exists n).
        apply run_opt_crash in H as (x & -> & H); [|done|].
        + exists (reverse xs), x. split; [by eapply cl_select|done].
        + intros y ->. apply choose_visible in Hch as (m & _ & Hv). by eapply closed_visible.
    Qed.
    Lemma loop_crash k i h xs t b x cl cs : fits h xs -> is_Some (th !! t) -> is_Some (th !! x) -> collection_at h cl cs ->
      do_loop th n inj k (Z.of_nat i) (h, Some xs) t b x cl = Panic -> (i <= length cs)%nat ->
      exists j q h2 o2, loops F ord th lg h (reverse xs) t b x i (length cs) (take j (drop i cs)) h2 o2 /\
        choose th t (element_names b (i + j) (length cs)) q /\
        (cs !! (i + j)%nat = Some None \/ exists e h3, cs !! (i + j)%nat = Some (Some e) /\ counts h2 e (i + j) h3 /\ crashes h3 (e :: reverse xs) (or_else q x)).
    Proof.
      intros Hf Ht Hxx. revert i h Hf. induction k as [|k IH]; intros i h Hf Hc H Hi; cbn [do_loop] in H; [done|].
      cbn [fst] in H. assert (Hel : elements h cl = Some cs) by (by apply elements_some).
      unfold ccount in H. rewrite Hel in H. cbn [obind] in H. rewrite element_names_eq in H by lia. rewrite Nat2Z.id in H.
      destruct (bool_decide (Z.of_nat i < Z.of_nat (length cs))) eqn:Eb; [|done]. apply bool_decide_eq_true in Eb.
      apply obind_panic in H as [H|(r & Hr & H)]; [by apply try_names_ok in H|].
      assert (Hch : choose th t (element_names b i (length cs)) r) by (apply choose_names; by exists n).
      assert (Hg : exists d0, cs !! i = Some d0 /\ cget h cl (Z.of_nat i) = Ok (Some d0)).
      { destruct (lookup_lt_is_Some_2 cs i) as [d0 Ei]; [lia|]. exists d0. split; [done|]. unfold cget. rewrite Hel.
        rewrite bool_decide_eq_false_2 by lia. cbn [orb]. rewrite bool_decide_eq_false_2 by lia. by rewrite Nat2Z.id, Ei. }
      destruct Hg as (d0 & Ei & Hg). rewrite Hg in H. cbn [obind] in H.
      destruct d0 as [d|].
      2:{ exists 0%nat, r, h, []. rewrite Nat.add_0_r. split; [constructor|]. split; [done|]. by left. }
      assert (Hd : dataset_at h d) by (destruct Hf as ((_ & Hw) & _); eapply Hw; [done|by eapply elem_of_list_lookup_2]).
      apply obind_panic in H as [H|(h1 & Hset & H)].
      { apply chain_set_ok in H; [done|]. apply wf_chain; [apply Hf|done]. }
      apply dset_inside in Hset as (x0 & m & Hins & ->).
      set (h1 := <[x0 := _]> h) in *.
      assert (Hcnt : counts h d i h1) by (by exists x0, m).
      assert (C1 : counted h h1) by (by eapply counts_counted).
      apply (inner_crash h1 xs d (match r with Some x => x | None => x end)
        (fun st2 out sc3 => '(st4, outs) <-! do_loop th n inj k (Z.of_nat i + 1) (st2.1, sc3) t b x cl; Ok (st4, out :: outs)))
        in H as [H|(h2 & out & H1 & H2)].
      + exists 0%nat, r, h, []. rewrite Nat.add_0_r. split; [constructor|]. split; [done|]. right. by exists d, h1.
      + apply obind_panic in H2 as [H2|([st4 outs'] & _ & H2)]; [|done]. cbn [fst] in H2.
        assert (C2 : counted h h2) by (eapply counted_trans; [exact C1|]; exact (proj1 (renders_counted _ _ _ _) _ _ _ _ _ H1)).
        replace (Z.of_nat i + 1) with (Z.of_nat (S i)) in H2 by lia.
        apply IH in H2 as (j & q & h3 & o2 & Hl & Hq & Hcase); [|by eapply fits_counted|by apply (counted_collection h h2)|lia].
        exists (S j), q, h3, (out ++ o2). rewrite Nat.add_succ_r. split; [|by split].
        rewrite (drop_S cs (Some d) i Ei). cbn [take]. eapply lp_next; [exact Hch|exact Hcnt|exact H1|exact Hl].
      + by eapply fits_counted.
      + by apply (counted_dataset h h1).
      + destruct r as [y|]; [|done]. apply choose_visible in Hch as (nm & _ & Hv). by eapply closed_visible.
    Qed.
    Lemma range_crash h xs t s : fits h xs -> is_Some (th !! t) -> do_range th n inj (h, Some xs) t s = Panic ->
      element_crashes h (reverse xs) t (TRange s).
    Proof.
      intros Hf Ht H. unfold do_range in H. destruct (two_ids s) as [d b] eqn:E. apply two_ids_spec in E.
      apply obind_panic in H as [H|(r & Hr & H)]; [by apply closed_lookup in H|]. pose proof (looked_up _ _ _ Hr) as Hv.
      cbn [snd fst] in H. destruct r as [x|]; [|done]. pose proof (closed_visible _ _ _ _ Hclosed Hv) as Hx.
      unfold stack_collection in H. apply obind_panic in H as [H|(cl & Hcl & H)].
      { apply obind_panic in H as [H|(v & _ & H)]; [by apply fits_data in H|done]. }
      apply obind_ok in Hcl as (v & Hs & [= <-]). assert (Hfo : found h (reverse xs) d v) by (apply found_search; by exists n).
      assert (Hnone : (forall c xs, v = Some (VRef c) -> collection_at h c xs -> xs = []) ->
        (tmp <-! try_names th n t [dot b (B "none")]; run_on inj (h, Some xs) (match tmp with Some x => x | None => x end)) = Panic ->
        element_crashes h (reverse xs) t (TRange s)).
      { intros Hno H0. apply obind_panic in H0 as [H0|(q & Hq & H0)]; [by apply try_names_ok in H0|].
        assert (Hvq : visible th t (dotted b (B "none")) q).
        { cbn [try_names] in Hq. apply obind_ok in Hq as (q0 & Hq0 & Hq). apply looked_up in Hq0. destruct q0; by injection Hq as <-. }
        apply run_on_crash in H0; [|done|].
        - left. exists (reverse xs), (or_else q x). split; [by eapply cl_range_none|done].
        - destruct q as [y|]; [by eapply closed_visible|done]. }
      destruct (v ≫= as_collection h) as [l|] eqn:El.
      - destruct v as [v|]; [|done]. simpl in El. apply as_collection_some in El as [-> [cs Hcs]].
        unfold ccount in H at 1. rewrite (proj2 (elements_some h l cs) Hcs) in H. cbn [obind] in H.
        case_bool_decide as Hlen.
        + apply (loop_crash n 0 h xs t b x l cs) in H as (j & q & h2 & o2 & Hl & Hq & Hcase); [|done..|lia].
          rewrite drop_0 in Hl. rewrite Nat.add_0_l in Hq, Hcase.
          right. exists b, x, cs, j, q, h2, o2. split; [by exists s, d, l|]. by repeat split.
        + apply Hnone; [|done]. intros c' xs' [= <-] Hc'. rewrite (collection_det _ _ _ _ Hc' Hcs). destruct cs; [done|]. simpl in Hlen. lia.
      - apply Hnone; [|done]. intros c' xs' -> Hc'. simpl in El. by destruct (as_collection_none h (VRef c') El c' xs' eq_refl).
    Qed.
    Lemma condition_crash h xs t s : fits h xs -> is_Some (th !! t) -> do_condition F ord th n inj (h, Some xs) t s = Panic ->
      element_crashes h (reverse xs) t (TCond s).
    Proof.
      intros Hf Ht H. left. unfold do_condition in H. destruct (two_ids s) as [d b] eqn:E. apply two_ids_spec in E.
      apply obind_panic in H as [H|(p & Hp & H)]; [by apply closed_lookup in H|]. pose proof (looked_up _ _ _ Hp) as Hv.
      cbn [snd fst] in H. apply obind_panic in H as [H|(value & Hval & H)].
      { apply obind_panic in H as [H|(r & _ & H)]; [by apply fits_data in H|done]. }
      apply obind_ok in Hval as (r & Hs & [= Hval]).
      assert (Hfo : found h (reverse xs) d r) by (apply found_search; by exists n).
      assert (Hsp : forall h' v, sprint F ord n h' v <> Panic) by (intros; apply show_value_no_panic).
      assert (Hpx : forall y, p = Some y -> is_Some (th !! y)) by (intros y ->; by eapply closed_visible).
      assert (Hlast : blank F ord h r ->
        (tmp <-! lookup_template th n t (dot b (B "none"));
         '(st2, outs2) <-! run_opt inj (h, Some xs) (match tmp with Some x => Some x | None => p end); Ok (st2, [] ++ outs2)) = Panic ->
        exists sc' x, calls h (reverse xs) t (TCond s) sc' x /\ crashes h sc' x).
      { intros Hbl H0. apply obind_panic in H0 as [H0|(q & Hq & H0)]; [by apply closed_lookup in H0|]. apply looked_up in Hq.
        apply obind_panic in H0 as [H0|([st2 outs2] & _ & H0)]; [|done].
        apply run_opt_crash in H0 as (y & Ey & H0); [|done|].
        - exists (reverse xs), y. split; [|done]. by eapply cl_cond_blank.
        - intros y Hy. destruct q as [z|]; [injection Hy as <-; by eapply closed_visible|by apply Hpx]. }
      destruct (is_nil value) eqn:En.
      - assert (Hbl : blank F ord h r).
        { destruct r as [v|]; [|constructor]. subst value. destruct v; try done. constructor. }
        apply Hlast; [done|]. destruct p; exact H.
      - destruct r as [v|]; [|by subst value]. subst v. rename value into v.
        assert (Hnn : v <> VNil) by (intros ->; done).
        destruct p as [x|].
        + pose proof (Hpx x eq_refl) as Hx. destruct (as_dataset h v) as [l|] eqn:Ed.
          * apply as_dataset_some in Ed as [-> Hd].
            apply obind_panic in H as [H1|([[st1 outs1] s1] & H1 & H2)].
            -- cbn [spush non_nil obind] in H1. apply obind_panic in H1 as [H1|(q & Hq & H1)]; [by apply closed_lookup in H1|].
               apply looked_up in Hq. apply obind_panic in H1 as [H1|([st2 out] & H0 & H3)].
               ++ apply Hpan in H1; [|by apply fits_push|by destruct q; [eapply closed_visible|]]. rewrite reverse_snoc in H1.
                  exists (l :: reverse xs), (or_else q x). split; [|exact H1]. by eapply cl_cond_dataset.
               ++ apply Hinj in H0 as (h' & -> & _); [|by destruct xs]. cbn [snd fst] in H3. rewrite spop_push in H3. done.
            -- exfalso. apply obind_panic in H2 as [H2|(em & Hem & H2)].
               { apply obind_panic in H2 as [H2|(? & _ & H2)]; [by apply Hsp in H2|done]. }
               apply obind_ok in Hem as (u & Hu & [= <-]). pose proof (object_text _ _ _ _ _ _ Hu) as Hne. by destruct u.
          * apply obind_panic in H as [H1|([[st1 outs1] s1] & H1 & H2)].
            -- apply obind_panic in H1 as [H1|(w & Hw & H1)]; [by apply Hsp in H1|]. destruct w as [|c w]; [done|].
               apply obind_panic in H1 as [H1|(q & Hq & H1)]; [by apply closed_lookup in H1|]. apply looked_up in Hq.
               apply obind_panic in H1 as [H1|([st2 out] & _ & H3)]; [|done].
               apply Hpan in H1; [|done|by destruct q; [eapply closed_visible|]].
               exists (reverse xs), (or_else q x). split; [|exact H1].
               eapply cl_cond_value; [done|done|done|done| |by exists n|done|exact Hq]. intros l ->. by apply (as_dataset_none h (VRef l)).
            -- apply obind_ok in H1 as (w & Hw & H1). destruct w as [|c w].
               ++ injection H1 as <- <- <-. apply obind_panic in H2 as [H2|(em & Hem & H2)].
                  { apply obind_panic in H2 as [H2|(? & _ & H2)]; [by apply Hsp in H2|done]. }
                  apply obind_ok in Hem as (u & Hu & [= <-]). cbn [fst] in Hu. rewrite Hw in Hu. injection Hu as <-.
                  apply Hlast; [|exact H2]. apply bl_empty; [done|by exists n].
               ++ exfalso. apply obind_ok in H1 as (q & Hq & H1). apply obind_ok in H1 as ([st2 out] & H1 & [= <- <- <-]).
                  apply Hinj in H1 as (h' & -> & H1); [|apply Hf].
                  apply obind_panic in H2 as [H2|(em & Hem & H2)].
                  { apply obind_panic in H2 as [H2|(? & _ & H2)]; [by apply Hsp in H2|done]. }
                  apply obind_ok in Hem as (u & Hu & [= <-]). cbn [fst] in Hu.
                  assert (Hne : u <> []).
                  { destruct (ref_or_not v) as [[l ->]|Hr]; [by eapply object_text|].
                    pose proof (plain_sprint F ord h h' v _ n n Hr Hw) as Hw'. rewrite Hw' in Hu. by injection Hu as <-. }
                  by destruct u.
        + cbn [obind] in H. apply obind_panic in H as [H|(em & Hem & H)].
          { apply obind_panic in H as [H|(? & _ & H)]; [by apply Hsp in H|done]. }
          apply obind_ok in Hem as (u & Hu & [= <-]). cbn [fst] in Hu.
          destruct u as [|c u]; [|done]. apply Hlast; [|exact H]. apply bl_empty; [done|by exists n].
    Qed.
    Lemma param_crash h xs t k : fits h xs -> is_Some (th !! t) -> k <> TClose -> (forall nm, k <> TOpen nm) ->
      do_param F ord th n lg inj (h, Some xs) t (stored k) = Panic -> element_crashes h (reverse xs) t k.
    Proof.
      intros Hf Ht Hc Ho H. destruct k as [s|s|s|s|s|s|s|s|s|]; try done.
      - change (do_reference F ord th n inj (h, Some xs) t (split_on ":"%char s) = Panic) in H. by apply reference_crash.
      - change (do_range th n inj (h, Some xs) t s = Panic) in H. by apply range_crash.
      - change (do_condition F ord th n inj (h, Some xs) t s = Panic) in H. by apply condition_crash.
      - unfold do_param in H. cbn [stored p_data p_type snd fst] in H.
        repeat (rewrite bool_decide_eq_false_2 in H by done). rewrite bool_decide_eq_true_2 in H by done.
        destruct Hf as (Hw & Hne & Hall). destruct xs as [|d xs]; [done|]. case_bool_decide; [|done].
        apply obind_panic in H as [H|(? & _ & H)]; [|done]. apply show_chain_ok in H; [done|]. apply wf_chain; [done|]. by apply Forall_inv in Hall.
      - change ((d <-! stack_string F ord n h xs s; Ok ((h, Some xs), [d])) = Panic) in H.
        apply obind_panic in H as [H|(? & _ & H)]; [by apply fits_string in H|done].
    Qed.
    Lemma params_crash h xs t l : fits h xs -> is_Some (th !! t) -> Forall (fun k => k <> TClose /\ forall nm, k <> TOpen nm) l ->
      do_params F ord th n lg inj (h, Some xs) t (map stored l) = Panic ->
      exists l1 k l2 h1 o, l = l1 ++ k :: l2 /\ renders_all F ord th lg h (reverse xs) t l1 h1 o /\ element_crashes h1 (reverse xs) t k.
    Proof.
      intros Hf Ht Hl. revert h Hf. induction Hl as [|k l [Hc Ho] Hl IH]; intros h Hf H; [done|].
      cbn [map do_params] in H. apply obind_panic in H as [H|([st1 a] & H1 & H)].
      - exists [], k, l, h, []. split; [done|]. split; [constructor|]. by apply param_crash.
      - apply obind_panic in H as [H|([st2 b] & _ & H)]; [|done].
        apply (param_sound F ord th lg n inj Hinj) in H1 as (h1 & -> & H1); [|apply Hf|done..].
        apply IH in H as (l1 & k' & l2 & h2 & o & -> & H2 & H3).
        + exists (k :: l1), k', l2, h2, (concat a ++ o). split; [done|]. split; [by eapply ra_cons|done].
        + eapply fits_counted; [|exact Hf]. by apply (proj1 (proj2 (proj2 (proj2 (renders_counted F ord th lg)))) _ _ _ _ _ _ H1).
    Qed.
  End Body.
  Lemma injector_crash n h xs t : fits h xs -> is_Some (th !! t) -> run n (h, Some xs) t = Panic -> crashes h (reverse xs) t.
  Proof.
    revert h xs t. induction n as [|n IH]; intros h xs t Hf Ht H; [done|]. cbn [injector] in H.
    destruct (th !! t) as [T|] eqn:HT; [|by destruct Ht]. destruct (t_root T) as [ps|] eqn:Hr; [|done].
    destruct (Hcomp t T ps HT Hr) as (l & -> & Hl).
    apply obind_panic in H as [H|([st1 outs] & _ & H)]; [|done].
    apply params_crash in H as (l1 & k & l2 & h1 & o & -> & H1 & H2); [|intros; by eapply injector_sound|exact IH|done|by exists T|done].
    destruct H2 as [(sc' & x & H2 & H3)|(b & x & cs & i & q & h2 & o2 & H2 & H3 & H4 & [H5|(e & h3 & H5 & H6 & H7)])].
    - by eapply cr_call.
    - by eapply cr_hole.
    - by eapply cr_inside.
  Qed.
End Crash.
