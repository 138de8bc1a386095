(** * Every execution is described by the relation. *)
From Verif Require Import GoBase GoStrings GoStringsProofs Regex DatasetModel LangModel DatasetSpec DatasetProofs DatasetProofs2 DatasetProofs3
  DatasetProofs5 TemplateModel TemplateSpec TemplateProofs2 TemplateProofs3 TemplateProofs4 TemplateProofs5 TemplateProofs6 RenderSpec RenderProofs.
Local Open Scope Z_scope.

Lemma obind_ok {A C} (a : outcome A) (f : A -> outcome C) y : obind a f = Ok y -> exists x, a = Ok x /\ f x = Ok y.
Proof. destruct a as [x| |]; simpl; [|done|done]. by exists x. Qed.
Lemma spop_push (xs : list loc) d : spop (Some (xs ++ [d])) = Ok (Some xs).
Proof. unfold spop. simpl. rewrite reverse_snoc. by rewrite reverse_involutive. Qed.
Lemma element_names_eq b i c : 0 <= c ->
  [dot b (B "key." ++ itoa (Z.of_nat i))] ++ (if bool_decide (Z.of_nat i = 0) then [dot b (B "first")] else []) ++
  (if bool_decide (Z.of_nat i = c - 1) then [dot b (B "last")] else []) ++ (if bool_decide (Z.rem (Z.of_nat i) 2 = 0) then [dot b (B "even")] else [])
  = element_names b i (Z.to_nat c).
Proof.
  intros Hc. unfold element_names. change dotted with dot. f_equal. f_equal; [|f_equal].
  - destruct (decide (i = 0%nat)); [rewrite bool_decide_eq_true_2 by lia|rewrite bool_decide_eq_false_2 by lia]; done.
  - destruct (decide (S i = Z.to_nat c)); [rewrite bool_decide_eq_true_2 by lia|rewrite bool_decide_eq_false_2 by lia]; done.
  - destruct (Nat.even i) eqn:E.
    + apply Nat.even_spec in E as [k ->]. rewrite bool_decide_eq_true_2; [done|].
      rewrite Z.rem_mod_nonneg by lia. rewrite Nat2Z.inj_mul, Z.mul_comm. by apply Z_mod_mult.
    + rewrite bool_decide_eq_false_2; [done|]. rewrite Z.rem_mod_nonneg by lia. intros H.
      apply Z.mod_divide in H as [k Hk]; [|done]. assert (Ei : Nat.even i = true); [|congruence].
      apply Nat.even_spec. exists (Z.to_nat k). lia.
Qed.
Section Sound.
  Context (F : golib) (ord : heap -> gmap bytes value -> list (bytes * value)) (th : theap) (lg : option lang).
  Notation renders := (renders F ord th lg).
  Notation renders_one := (renders_one F ord th lg).
  Notation renders_opt := (renders_opt F ord th lg).
  Notation loops := (loops F ord th lg).
  Section Body.
    Context (n : nat) (inj : heap * option (list loc) -> loc -> outcome (heap * option (list loc) * bytes)).
    Context (Hinj : forall h xs t st' out, xs <> [] -> inj (h, Some xs) t = Ok (st', out) ->
      exists h', st' = (h', Some xs) /\ renders h (reverse xs) t h' out).
    Lemma run_on_sound h xs t st' outs : xs <> [] -> run_on inj (h, Some xs) t = Ok (st', outs) ->
      exists h', st' = (h', Some xs) /\ renders h (reverse xs) t h' (concat outs).
    Proof.
      intros Hx H. unfold run_on in H. apply obind_ok in H as ([st1 out] & H1 & [= <- <-]).
      apply Hinj in H1 as (h' & -> & H1); [|done]. exists h'. simpl. by rewrite app_nil_r.
    Qed.
    Lemma run_opt_sound h xs t st' outs : xs <> [] -> run_opt inj (h, Some xs) t = Ok (st', outs) ->
      exists h', st' = (h', Some xs) /\ renders_opt h (reverse xs) t h' (concat outs).
    Proof.
      intros Hx. destruct t as [t|]; simpl.
      - intros H. apply run_on_sound in H as (h' & -> & H); [|done]. exists h'. split; [done|by constructor].
      - intros [= <- <-]. exists h. split; [done|constructor].
    Qed.
    Lemma inner_sound {A} h xs d t (k : heap * option (list loc) -> bytes -> option (list loc) -> outcome A) y : xs <> [] ->
      (sc1 <-! spush (Some xs) d; '(st2, out) <-! inj (h, sc1) t; sc3 <-! spop st2.2; k st2 out sc3) = Ok y ->
      exists h' out, renders h (d :: reverse xs) t h' out /\ k (h', Some (xs ++ [d])) out (Some xs) = Ok y.
    Proof.
      intros Hx H. simpl in H. apply obind_ok in H as ([st2 out] & H1 & H2).
      apply Hinj in H1 as (h' & -> & H1); [|by destruct xs]. rewrite reverse_snoc in H1. cbn [fst snd] in H2.
      apply obind_ok in H2 as (sc3 & H2 & H3). rewrite spop_push in H2. injection H2 as <-. by exists h', out.
    Qed.
    Lemma not_dataset h (v : option value) : (v ≫= as_dataset h) = None -> forall d, v = Some (VRef d) -> ~ dataset_at h d.
    Proof. intros H d ->. simpl in H. by apply (as_dataset_none h (VRef d)). Qed.
    Lemma reference_sound h xs t s st' outs : xs <> [] ->
      do_reference F ord th n inj (h, Some xs) t (split_on ":"%char s) = Ok (st', outs) ->
      exists h', st' = (h', Some xs) /\ renders_one h (reverse xs) t (TRef s) h' (concat outs).
    Proof.
      intros Hx H. destruct (split_on ":"%char s) as [|a ws] eqn:E; [by apply split_on_nonempty in E|].
      apply separated_split in E.
      assert (Hgen : length ws <> 1%nat -> length ws <> 2%nat ->
        (r <-! lookup_template th n t a; match r with None => Ok ((h, Some xs), []) | Some subt => run_on inj (h, Some xs) subt end) = Ok (st', outs) ->
        exists h', st' = (h', Some xs) /\ renders_one h (reverse xs) t (TRef s) h' (concat outs)).
      { intros L1 L2 H0. apply obind_ok in H0 as (r & Hr & H0).
        assert (Hv : visible th t a r) by (apply get_template_visible; by exists n). destruct r as [x|].
        - apply run_on_sound in H0 as (h' & -> & H0); [|done]. exists h'. split; [done|]. by eapply ro_ref.
        - injection H0 as <- <-. exists h. split; [done|]. by eapply ro_ref_unknown. }
      unfold do_reference in H. destruct ws as [|field [|prefix [|e ws]]]; [by apply Hgen| | |by apply Hgen].
      - apply obind_ok in H as (r & Hr & H). assert (Hv : visible th t a r) by (apply get_template_visible; by exists n).
        destruct r as [x|]; [|injection H as <- <-; exists h; split; [done|]; by eapply ro_ref_unknown].
        apply obind_ok in H as (v & Hs & H). simpl in Hs.
        assert (Hf : found h (reverse xs) field v) by (apply found_search; by exists n). simpl in H.
        destruct (v ≫= as_dataset h) as [d|] eqn:Ed.
        + destruct v as [v|]; [|done]. simpl in Ed. apply as_dataset_some in Ed as [-> Hd].
          apply (inner_sound h xs d x (fun st2 out sc3 => Ok ((st2.1, sc3), [out]))) in H as (h' & out & H1 & H2); [|done].
          injection H2 as <- <-. exists h'. split; [done|]. simpl. rewrite app_nil_r. by eapply ro_ref_narrow.
        + apply run_on_sound in H as (h' & -> & H); [|done]. exists h'. split; [done|]. eapply ro_ref_keep; try done.
          by apply not_dataset.
      - apply obind_ok in H as (v & Hs & H). simpl in Hs.
        assert (Hf : field_text F ord h (reverse xs) field v) by (apply field_text_string; rewrite reverse_involutive; by exists n).
        apply obind_ok in H as (r & Hr & H). apply run_opt_sound in H as (h' & -> & H); [|done]. exists h'. split; [done|].
        eapply ro_ref_select; [done|done|apply choose_names; by exists n|done].
    Qed.
    Lemma loop_sound k i h xs t b x cl cs st' outs : xs <> [] -> collection_at h cl cs ->
      do_loop th n inj k (Z.of_nat i) (h, Some xs) t b x cl = Ok (st', outs) -> (i <= length cs)%nat ->
      exists h', st' = (h', Some xs) /\ loops h (reverse xs) t b x i (length cs) (drop i cs) h' (concat outs).
    Proof.
      intros Hx. revert i h st' outs. induction k as [|k IH]; intros i h st' outs Hc H Hi; cbn [do_loop] in H; [done|].
      cbn [fst] in H.
      assert (Hel : elements h cl = Some cs) by (by apply elements_some).
      unfold ccount in H. rewrite Hel in H. cbn [obind] in H.
      rewrite element_names_eq in H by lia. rewrite Nat2Z.id in H.
      destruct (bool_decide (Z.of_nat i < Z.of_nat (length cs))) eqn:Eb.
      2:{ apply bool_decide_eq_false in Eb. injection H as <- <-. exists h. split; [done|]. rewrite drop_ge by lia. constructor. }
      apply bool_decide_eq_true in Eb.
      apply obind_ok in H as (r & Hr & H). apply obind_ok in H as (e & He & H).
      unfold cget in He. rewrite Hel in He. rewrite bool_decide_eq_false_2 in He by lia. cbn [orb] in He.
      rewrite bool_decide_eq_false_2 in He by lia. rewrite Nat2Z.id in He.
      destruct (cs !! i) as [d0|] eqn:Ei; [|done]. injection He as <-. destruct d0 as [d|]; [|done].
      apply obind_ok in H as (h1 & Hset & H). apply dset_inside in Hset as (x0 & m & Hins & ->).
      set (h1 := <[x0 := _]> h) in *.
      assert (Hcnt : counts h d i h1) by (by exists x0, m).
      apply (inner_sound h1 xs d (match r with Some x => x | None => x end)
        (fun st2 out sc3 => '(st4, outs) <-! do_loop th n inj k (Z.of_nat i + 1) (st2.1, sc3) t b x cl; Ok (st4, out :: outs)))
        in H as (h2 & out & H1 & H2); [|done].
      apply obind_ok in H2 as ([st4 outs'] & H2 & [= <- <-]). cbn [fst] in H2.
      assert (C1 : counted h h1) by (by eapply counts_counted).
      assert (C2 : counted h h2) by (eapply counted_trans; [exact C1|]; exact (proj1 (renders_counted _ _ _ _) _ _ _ _ _ H1)).
      replace (Z.of_nat i + 1) with (Z.of_nat (S i)) in H2 by lia.
      apply IH in H2 as (h' & -> & H2); [|by apply (counted_collection h h2)|lia].
      exists h'. split; [done|]. rewrite (drop_S cs (Some d) i Ei). cbn [concat].
      eapply lp_next; [apply choose_names; by exists n|exact Hcnt|exact H1|exact H2].
    Qed.
    Lemma range_sound h xs t s st' outs : xs <> [] -> do_range th n inj (h, Some xs) t s = Ok (st', outs) ->
      exists h', st' = (h', Some xs) /\ renders_one h (reverse xs) t (TRange s) h' (concat outs).
    Proof.
      intros Hx H. unfold do_range in H. destruct (two_ids s) as [d b] eqn:E. apply two_ids_spec in E.
      apply obind_ok in H as (r & Hr & H). assert (Hv : visible th t b r) by (apply get_template_visible; by exists n).
      cbn [snd fst] in H. destruct r as [x|]; [|injection H as <- <-; exists h; split; [done|]; by eapply ro_range_unknown].
      apply obind_ok in H as (cl & Hcl & H). unfold stack_collection, stack_data in Hcl.
      apply obind_ok in Hcl as (v & Hs & [= <-]). assert (Hf : found h (reverse xs) d v) by (apply found_search; by exists n).
      apply obind_ok in H as (c & Hc & H).
      assert (Hnone : (forall c xs, v = Some (VRef c) -> collection_at h c xs -> xs = []) ->
        (tmp <-! try_names th n t [dot b (B "none")]; run_on inj (h, Some xs) (match tmp with Some x => x | None => x end)) = Ok (st', outs) ->
        exists h', st' = (h', Some xs) /\ renders_one h (reverse xs) t (TRange s) h' (concat outs)).
      { intros Hno H0. apply obind_ok in H0 as (q & Hq & H0). apply run_on_sound in H0 as (h' & -> & H0); [|done].
        exists h'. split; [done|]. cbn [try_names] in Hq. apply obind_ok in Hq as (q0 & Hq0 & Hq).
        eapply (ro_range_none F ord th lg h (reverse xs) t s d b x v q); try done.
        apply get_template_visible. exists n. unfold lookup_template in Hq0. change (dotted b (B "none")) with (dot b (B "none")). rewrite Hq0.
        destruct q0; [by injection Hq as <-|by injection Hq as <-]. }
      destruct (v ≫= as_collection h) as [l|] eqn:El.
      - destruct v as [v|]; [|done]. simpl in El. apply as_collection_some in El as [-> [cs Hcs]].
        unfold ccount in Hc. rewrite (proj2 (elements_some h l cs) Hcs) in Hc. injection Hc as <-.
        case_bool_decide as Hlen.
        + apply (loop_sound n 0 h xs t b x l cs) in H as (h' & -> & H); [|done|done|lia]. exists h'. split; [done|].
          eapply ro_range; try done. intros ->. simpl in Hlen. lia.
        + apply Hnone; [|done]. intros c' xs' [= <-] Hc'. rewrite (collection_det _ _ _ _ Hc' Hcs). destruct cs; [done|]. simpl in Hlen. lia.
      - apply Hnone; [|done]. intros c' xs' -> Hc'. simpl in El. by destruct (as_collection_none h (VRef c') El c' xs' eq_refl).
    Qed.
    (** Objects never print as the empty text. *)
    Lemma object_text h l s m : sprint F ord m h (VRef l) = Ok s -> s <> [].
    Proof.
      unfold sprint, show_value. assert (Hs : forall m l s, show F ord m h false l = Ok s -> s <> []).
      { clear. intros m. induction m as [|m IH]; intros l s; simpl; [done|].
        destruct (h !! l) as [[mm|[d|]|xs|xs]|]; try done.
        - intros H. by apply obind_ok in H as (t & _ & [= <-]).
        - apply IH.
        - intros H. by apply obind_ok in H as (t & _ & [= <-]).
        - intros H. by apply obind_ok in H as (t & _ & [= <-]). }
      destruct (show F ord m h false l) as [s'| |] eqn:E; [|by intros [= <-]|done]. intros [= <-]. by eapply Hs.
    Qed.
    Lemma plain_sprint h h' v s m m' : (forall l, v <> VRef l) -> sprint F ord m h v = Ok s -> sprint F ord m' h' v = Ok s.
    Proof. intros Hv. unfold sprint, show_value. destruct v; try done. by destruct (Hv l). Qed.
    Lemma condition_sound h xs t s st' outs : xs <> [] -> do_condition F ord th n inj (h, Some xs) t s = Ok (st', outs) ->
      exists h', st' = (h', Some xs) /\ renders_one h (reverse xs) t (TCond s) h' (concat outs).
    Proof.
      intros Hx H. unfold do_condition in H. destruct (two_ids s) as [d b] eqn:E. apply two_ids_spec in E.
      apply obind_ok in H as (p & Hp & H). assert (Hv : visible th t b p) by (apply get_template_visible; by exists n).
      cbn [snd fst] in H. apply obind_ok in H as (value & Hval & H).
      apply obind_ok in Hval as (r & Hs & [= Hval]).
      assert (Hf : found h (reverse xs) d r) by (apply found_search; by exists n).
      (* the last part, when nothing was rendered before *)
      assert (Hlast : forall outs0, blank F ord h r ->
        (tmp <-! lookup_template th n t (dot b (B "none"));
         '(st2, outs2) <-! run_opt inj (h, Some xs) (match tmp with Some x => Some x | None => p end); Ok (st2, [] ++ outs2)) = Ok (st', outs0) ->
        exists h', st' = (h', Some xs) /\ renders_one h (reverse xs) t (TCond s) h' (concat outs0)).
      { intros outs0 Hbl H0. apply obind_ok in H0 as (q & Hq & H0). apply obind_ok in H0 as ([st2 outs2] & H0 & [= <- <-]).
        apply run_opt_sound in H0 as (h' & -> & H0); [|done]. exists h'. split; [done|].
        eapply ro_cond_blank; try done. apply get_template_visible. by exists n. }
      destruct (is_nil value) eqn:En.
      - assert (Hbl : blank F ord h r).
        { destruct r as [v|]; [|constructor]. subst value. destruct v; try done. constructor. }
        assert (H' : (tmp <-! lookup_template th n t (dot b (B "none"));
          '(st2, outs2) <-! run_opt inj (h, Some xs) (match tmp with Some x => Some x | None => p end); Ok (st2, [] ++ outs2)) = Ok (st', outs)).
        { destruct p; exact H. }
        by apply Hlast in H'.
      - destruct r as [v|]; [|by subst value]. subst v. rename value into v.
        assert (Hnn : v <> VNil) by (intros ->; done).
        destruct p as [x|].
        + destruct (as_dataset h v) as [l|] eqn:Ed.
          * apply as_dataset_some in Ed as [-> Hd].
            apply obind_ok in H as ([[st1 outs1] s1] & H1 & H2).
            cbn [spush non_nil obind] in H1. apply obind_ok in H1 as (q & Hq & H1).
            apply obind_ok in H1 as ([st2 out] & H1 & H3). apply Hinj in H1 as (h' & -> & H1); [|by destruct xs].
            rewrite reverse_snoc in H1. cbn [snd fst] in H3. rewrite spop_push in H3. cbn [obind] in H3. injection H3 as <- <- <-.
            apply obind_ok in H2 as (em & Hem & H2). apply obind_ok in Hem as (u & Hu & [= <-]). cbn [fst] in Hu.
            pose proof (object_text _ _ _ _ Hu) as Hne. destruct u as [|c u]; [done|]. injection H2 as <- <-.
            exists h'. split; [done|]. simpl. rewrite app_nil_r.
            eapply ro_cond_dataset; [done|done|done|done|apply get_template_visible; by exists n|exact H1|by exists n].
          * apply obind_ok in H as ([[st1 outs1] s1] & H1 & H2).
            apply obind_ok in H1 as (w & Hw & H1). destruct w as [|c w].
            -- injection H1 as <- <- <-. apply obind_ok in H2 as (em & Hem & H2).
               apply obind_ok in Hem as (u & Hu & [= <-]). cbn [fst] in Hu. rewrite Hw in Hu. injection Hu as <-.
               apply Hlast; [|exact H2]. apply bl_empty; [done|by exists n].
            -- apply obind_ok in H1 as (q & Hq & H1). apply obind_ok in H1 as ([st2 out] & H1 & [= <- <- <-]).
               apply Hinj in H1 as (h' & -> & H1); [|done].
               apply obind_ok in H2 as (em & Hem & H2). apply obind_ok in Hem as (u & Hu & [= <-]). cbn [fst] in Hu.
               assert (Hne : u <> []).
               { assert (Hr : (exists l, v = VRef l) \/ forall l, v <> VRef l) by (destruct v; eauto).
                 destruct Hr as [[l ->]|Hr]; [by eapply object_text|].
                 pose proof (plain_sprint h h' v _ n n Hr Hw) as Hw'. rewrite Hw' in Hu. by injection Hu as <-. }
               destruct u as [|c' u]; [done|]. injection H2 as <- <-.
               exists h'. split; [done|]. simpl. rewrite app_nil_r.
               eapply ro_cond_value; [done|done|done|done| |by exists n|done|apply get_template_visible; by exists n|exact H1|by exists n].
               intros l ->. by apply (as_dataset_none h (VRef l)).
        + cbn [obind] in H. apply obind_ok in H as (em & Hem & H). apply obind_ok in Hem as (u & Hu & [= <-]). cbn [fst] in Hu.
          destruct u as [|c u].
          * apply Hlast; [|exact H]. apply bl_empty; [done|by exists n].
          * injection H as <- <-. exists h. split; [done|]. eapply ro_cond_unknown; [done|done|done|done|by exists n|done].
    Qed.
    Lemma param_sound h xs t k st' outs : xs <> [] -> k <> TClose -> (forall nm, k <> TOpen nm) ->
      do_param F ord th n lg inj (h, Some xs) t (stored k) = Ok (st', outs) ->
      exists h', st' = (h', Some xs) /\ renders_one h (reverse xs) t k h' (concat outs).
    Proof.
      intros Hx Hc Ho H. destruct k as [s|s|s|s|s|s|s|s|s|]; try done.
      - cbn in H. injection H as <- <-. exists h. split; [done|]. simpl. rewrite app_nil_r. constructor.
      - cbn in H. injection H as <- <-. exists h. split; [done|]. constructor.
      - cbn in H. injection H as <- <-. exists h. split; [done|]. destruct lg as [g|] eqn:El.
        + simpl. rewrite app_nil_r. unfold lget. destruct (l_entries g !! s) as [v|] eqn:Ev.
          * by eapply ro_lang.
          * apply ro_lang_missing. by intros g' [= <-].
        + by apply ro_lang_missing.
      - change (do_reference F ord th n inj (h, Some xs) t (split_on ":"%char s) = Ok (st', outs)) in H. by apply reference_sound.
      - change (do_range th n inj (h, Some xs) t s = Ok (st', outs)) in H. by apply range_sound.
      - change (do_condition F ord th n inj (h, Some xs) t s = Ok (st', outs)) in H. by apply condition_sound.
      - cbn [do_param stored p_data p_type] in H. unfold do_param in H. cbn [stored p_data p_type snd fst] in H.
        repeat (rewrite bool_decide_eq_false_2 in H by done). rewrite bool_decide_eq_true_2 in H by done.
        destruct xs as [|d xs]; [done|]. rewrite reverse_cons. case_bool_decide as Hd.
        + apply obind_ok in H as (o & Ho' & [= <- <-]). exists h. split; [done|]. simpl. rewrite app_nil_r.
          apply ro_dump; [done|by exists n].
        + injection H as <- <-. exists h. split; [done|]. apply ro_dump_other; tauto.
      - change ((d <-! stack_string F ord n h xs s; Ok ((h, Some xs), [d])) = Ok (st', outs)) in H.
        apply obind_ok in H as (o & Ho' & [= <- <-]). exists h. split; [done|]. simpl. rewrite app_nil_r.
        apply ro_var. apply field_text_string. rewrite reverse_involutive. by exists n.
      - by destruct (Ho s).
    Qed.
    Lemma params_sound h xs t l st' outs : xs <> [] -> Forall (fun k => k <> TClose /\ forall nm, k <> TOpen nm) l ->
      do_params F ord th n lg inj (h, Some xs) t (map stored l) = Ok (st', outs) ->
      exists h', st' = (h', Some xs) /\ renders_all F ord th lg h (reverse xs) t l h' (concat outs).
    Proof.
      intros Hx Hl. revert h st' outs. induction Hl as [|k l [Hc Ho] Hl IH]; intros h st' outs H.
      - injection H as <- <-. exists h. split; [done|constructor].
      - cbn [map do_params] in H. apply obind_ok in H as ([st1 a] & H1 & H). apply obind_ok in H as ([st2 b] & H2 & [= <- <-]).
        apply param_sound in H1 as (h1 & -> & H1); try done. apply IH in H2 as (h' & -> & H2).
        exists h'. split; [done|]. rewrite concat_app. by eapply ra_cons.
    Qed.
  End Body.
  Lemma injector_sound n h xs t st' out : compiled th -> xs <> [] -> injector F ord th n lg (h, Some xs) t = Ok (st', out) ->
    exists h', st' = (h', Some xs) /\ renders h (reverse xs) t h' out.
  Proof.
    intros Hcomp. revert h xs t st' out. induction n as [|n IH]; intros h xs t st' out Hx H; simpl in H; [done|].
    destruct (th !! t) as [T|] eqn:HT; [|done]. destruct (t_root T) as [ps|] eqn:Hr.
    - destruct (Hcomp t T ps HT Hr) as (l & -> & Hl).
      apply obind_ok in H as ([st1 outs] & H & [= <- <-]). apply params_sound in H as (h' & -> & H); [|exact IH|done|done].
      exists h'. split; [done|]. by eapply rd_root.
    - injection H as <- <-. exists h. split; [done|]. by eapply rd_not_compiled.
  Qed.
End Sound.
