(** * Every execution among goroutines that change the data is described by the relation over time (C116). *)
From Verif Require Import GoBase GoStrings GoStringsProofs Regex DatasetModel LangModel DatasetSpec DatasetProofs DatasetProofs2 DatasetProofs3
  TemplateModel TemplateSpec TemplateProofs5 RenderSpec RenderProofs RenderProofs2 ParModel MeanSpec.
Local Open Scope nat_scope.

(** The accesses of [m] in the course [H], from the moment [i] on; the last is before [j]. *)
Fixpoint during {A} (H : nat -> heap) (m : act A) (i j : nat) (a : A) : Prop :=
  match m with
  | Ret b => j = i /\ b = a
  | Fail | Out => False
  | Act w k => exists t, i <= t /\ H (S t) = w (H t) /\ during H (k (H t)) (S t) j a
  end.
Lemma course_during {A} (path : nat -> heap * list (act A)) T i a p k : course T path -> (path T).2 !! i = Some (Ret a) -> k <= T -> (path k).2 !! i = Some p ->
  exists j, j <= T /\ during (fun m => (path m).1) p k j a.
Proof.
  intros Hc Hend Hk. remember (T - k) as q eqn:Eq. revert k p Hk Eq. induction q as [|q IH]; intros k p Hk Eq Hp.
  - assert (k = T) as -> by lia. rewrite Hend in Hp. injection Hp as <-. exists T. done.
  - assert (Hlt : k < T) by lia. pose proof (Hc k Hlt) as Hs. remember (path k) as s eqn:Es. remember (path (S k)) as s' eqn:Es'.
    destruct Hs as [h ps i' w kk Hi']. cbn [snd] in Hp. destruct (decide (i' = i)) as [->|Hne].
    + rewrite Hi' in Hp. injection Hp as <-. destruct (IH (S k) (kk h)) as (j & Hj & Hd); [lia|lia| |].
      { rewrite <- Es'. cbn [snd]. apply list_lookup_insert. by eapply lookup_lt_Some. }
      exists j. split; [done|]. exists k. split; [done|]. rewrite <- Es, <- Es'. cbn [fst]. split; [done|exact Hd].
    + destruct (IH (S k) p) as (j & Hj & Hd); [lia|lia| |].
      { rewrite <- Es'. cbn [snd]. by rewrite list_lookup_insert_ne. }
      destruct p as [b| | |w' k']; [|done|done|].
      * destruct Hd as [_ ->]. exists k. split; [lia|done].
      * destruct Hd as (t & Ht & Hd). exists j. split; [done|]. exists t. split; [lia|done].
Qed.

Section During.
  Context (H : nat -> heap).
  Lemma during_bind {A C} (m : act A) (f : A -> act C) i j b : during H (abind m f) i j b -> exists t a, during H m i t a /\ during H (f a) t j b.
  Proof.
    revert i. induction m as [a| | |w k IH]; intros i; cbn [abind during]; try done.
    - intros Hd. by exists i, a.
    - intros (t & Ht & Hw & Hd). apply IH in Hd as (u & a & H1 & H2). exists u, a. split; [|done]. by exists t.
  Qed.
  Lemma during_lift {A} (r : outcome A) i j a : during H (lift r) i j a -> r = Ok a /\ j = i.
  Proof. destruct r as [x| |]; cbn; try done. by intros [-> ->]. Qed.
  Lemma during_read {A} (f : heap -> outcome A) i j a : during H (read f) i j a -> exists t, i <= t /\ f (H t) = Ok a /\ j = S t.
  Proof. intros (t & Ht & _ & Hd). apply during_lift in Hd as [Hd ->]. by exists t. Qed.
  Lemma during_write (f : heap -> outcome heap) i j a : during H (write f) i j a -> exists t, i <= t /\ f (H t) = Ok (H (S t)) /\ j = S t.
  Proof. intros (t & Ht & Hw & Hd). exists t. destruct (f (H t)) as [h1| |]; cbn in Hd; try done. destruct Hd as [-> _]. by rewrite Hw. Qed.
End During.
Ltac split_bind D := let t := fresh "i" in let a := fresh "r" in let D1 := fresh "D" in apply during_bind in D as (t & a & D1 & D).

Section Sound.
  Context (F : golib) (ord : heap -> gmap bytes value -> list (bytes * value)) (th : theap) (lg : option lang) (H : nat -> heap).
  Notation shows := (shows F ord th lg H).
  Notation shows_one := (shows_one F ord th lg H).
  Notation shows_opt := (shows_opt F ord th lg H).
  Notation passes := (passes F ord th lg H).
  Lemma search_finds n sc key : forall i j r, during H (p_search n sc key) i j r -> finds H i sc key r j.
  Proof.
    induction sc as [|d sc IH]; intros i j r D; cbn [p_search] in D.
    - destruct D as [-> <-]. constructor.
    - apply during_bind in D as (t & a & D1 & D2). apply during_read in D1 as (m & Hm & Hg & ->).
      assert (Ha : answers (H m) d key a) by (apply answers_gets; by exists n). destruct a as [v|].
      + destruct D2 as [-> <-]. by eapply fi_here.
      + apply IH in D2. by eapply fi_outer.
  Qed.
  Lemma data_finds n xs key i j r : during H (p_data n xs key) i j r -> finds H i (reverse xs) key r j.
  Proof. apply search_finds. Qed.
  Lemma string_says n xs key i j s : during H (p_string F ord n xs key) i j s -> says_field F ord H i (reverse xs) key s j.
  Proof.
    intros D. apply during_bind in D as (t & r & D1 & D2). apply data_finds in D1. destruct r as [v|].
    - destruct (is_nil v) eqn:En.
      + destruct v; try done. destruct D2 as [-> <-]. by apply sf_nil.
      + assert (D2' : during H (read (fun h => sprint F ord n h v)) t j s) by (destruct v; done).
        apply during_read in D2' as (m & Hm & Hs & ->). eapply sf_value; [exact D1| |exact Hm|by exists n]. by intros ->.
    - destruct D2 as [-> <-]. by apply sf_missing.
  Qed.
  Section Body.
    Context (n : nat) (inj : option (list loc) -> loc -> act (option (list loc) * bytes)).
    Context (Hinj : forall i xs t j sc out, xs <> [] -> during H (inj (Some xs) t) i j (sc, out) -> sc = Some xs /\ shows i (reverse xs) t j out).
    Lemma mean_run i xs t j sc outs : xs <> [] -> during H (p_run inj (Some xs) t) i j (sc, outs) -> sc = Some xs /\ shows i (reverse xs) t j (concat outs).
    Proof.
      intros Hx D. unfold p_run in D. apply during_bind in D as (u & [sc1 out] & D1 & D2). apply Hinj in D1 as [-> D1]; [|done].
      destruct D2 as [-> [= <- <-]]. split; [done|]. cbn. by rewrite app_nil_r.
    Qed.
    Lemma mean_run_opt i xs t j sc outs : xs <> [] -> during H (p_run_opt inj (Some xs) t) i j (sc, outs) ->
      sc = Some xs /\ shows_opt i (reverse xs) t j (concat outs).
    Proof.
      intros Hx D. destruct t as [t|]; cbn [p_run_opt] in D.
      - apply mean_run in D as [-> D]; [|done]. split; [done|by constructor].
      - destruct D as [-> [= <- <-]]. split; [done|constructor].
    Qed.
    Lemma mean_inner {A} i xs d t (k : bytes -> option (list loc) -> act A) j y : xs <> [] ->
      during H (sc1 <~ lift (spush (Some xs) d); '(sc2, out) <~ inj sc1 t; sc3 <~ lift (spop sc2); k out sc3) i j y ->
      exists i1 out, shows i (d :: reverse xs) t i1 out /\ during H (k out (Some xs)) i1 j y.
    Proof.
      intros Hx D. cbn in D. apply during_bind in D as (i1 & [sc2 out] & D1 & D). apply Hinj in D1 as [-> D1]; [|by destruct xs].
      rewrite reverse_snoc in D1. rewrite spop_push in D. cbn in D. by exists i1, out.
    Qed.
    Lemma looked t b r : lookup_template th n t b = Ok r -> visible th t b r.
    Proof. intros Hr. apply get_template_visible. by exists n. Qed.
    Lemma tried t b q : try_names th n t [b] = Ok q -> visible th t b q.
    Proof.
      intros Hq. apply looked. cbn [try_names] in Hq. apply obind_ok in Hq as (q0 & Hq0 & Hq). rewrite Hq0. destruct q0; by injection Hq as <-.
    Qed.
    Lemma mean_reference i xs t s j sc outs : xs <> [] -> during H (p_reference F ord th n inj (Some xs) t (split_on ":"%char s)) i j (sc, outs) ->
      sc = Some xs /\ shows_one i (reverse xs) t (TRef s) j (concat outs).
    Proof.
      intros Hx D. destruct (split_on ":"%char s) as [|a ws] eqn:E; [by apply split_on_nonempty in E|]. apply separated_split in E.
      assert (Hgen : length ws <> 1 -> length ws <> 2 ->
        during H (r <~ lift (lookup_template th n t a); match r with None => Ret (Some xs, []) | Some subt => p_run inj (Some xs) subt end) i j (sc, outs) ->
        sc = Some xs /\ shows_one i (reverse xs) t (TRef s) j (concat outs)).
      { intros L1 L2 D0. apply during_bind in D0 as (u & r & Dr & D0). apply during_lift in Dr as [Hr ->]. apply looked in Hr. destruct r as [x|].
        - apply mean_run in D0 as [-> D0]; [|done]. split; [done|]. by eapply so_ref.
        - destruct D0 as [-> [= <- <-]]. split; [done|]. by eapply so_ref_unknown. }
      unfold p_reference in D. destruct ws as [|field [|prefix [|e ws]]]; [by apply Hgen| | |by apply Hgen].
      - apply during_bind in D as (u & r & Dr & D). apply during_lift in Dr as [Hr ->]. apply looked in Hr.
        destruct r as [x|]; [|destruct D as [-> [= <- <-]]; split; [done|]; by eapply so_ref_unknown].
        apply during_bind in D as (i1 & v & Dv & D). apply data_finds in Dv.
        apply during_bind in D as (u & d & Dd & D). apply during_read in Dd as (m & Hm & [= Ed] & ->).
        destruct d as [d|].
        + destruct v as [v|]; [|done]. cbn in Ed. apply as_dataset_some in Ed as [-> Hd].
          apply (mean_inner (S m) xs d x (fun out sc3 => Ret (sc3, [out]))) in D as (i2 & out & D1 & D2); [|done].
          destruct D2 as [-> [= <- <-]]. split; [done|]. cbn. rewrite app_nil_r. by eapply so_ref_narrow.
        + apply mean_run in D as [-> D]; [|done]. split; [done|]. eapply so_ref_keep; try done. by apply not_dataset.
      - apply during_bind in D as (i1 & v & Dv & D). cbn [p_non_nil] in Dv. apply string_says in Dv.
        apply during_bind in D as (u & r & Dr & D). apply during_lift in Dr as [Hr ->]. apply mean_run_opt in D as [-> D]; [|done]. split; [done|].
        eapply so_ref_select; [done|done|apply choose_names; by exists n|done].
    Qed.
    Lemma count_at i j c z : during H (read (fun h => ccount h c)) i j z -> exists m xs, i <= m /\ collection_at (H m) c xs /\ z = Z.of_nat (length xs) /\ j = S m.
    Proof.
      intros D. apply during_read in D as (m & Hm & Hc & ->). unfold ccount in Hc. destruct (elements (H m) c) as [xs|] eqn:E; [|done].
      injection Hc as <-. exists m, xs. by apply elements_some in E.
    Qed.
    Lemma first_names b k : [dot b (B "key." ++ itoa (Z.of_nat k))] ++ (if bool_decide (Z.of_nat k = 0%Z) then [dot b (B "first")] else []) =
      [dotted b (B "key." ++ itoa (Z.of_nat k))] ++ (if decide (k = 0) then [dotted b (B "first")] else []).
    Proof. change dotted with dot. f_equal. destruct (decide (k = 0)); [rewrite bool_decide_eq_true_2 by lia|rewrite bool_decide_eq_false_2 by lia]; done. Qed.
    Lemma last_names b k (c : nat) : (if bool_decide (Z.of_nat k = Z.of_nat c - 1)%Z then [dot b (B "last")] else []) ++
        (if bool_decide (Z.rem (Z.of_nat k) 2 = 0)%Z then [dot b (B "even")] else []) =
      (if decide (S k = c) then [dotted b (B "last")] else []) ++ (if Nat.even k then [dotted b (B "even")] else []).
    Proof.
      pose proof (element_names_eq b k (Z.of_nat c) ltac:(lia)) as E. unfold element_names in E. rewrite Nat2Z.id in E.
      change dotted with dot in *. assert (E2 : (if bool_decide (Z.of_nat k = 0%Z) then [dot b (B "first")] else []) = (if decide (k = 0) then [dot b (B "first")] else [])).
      { destruct (decide (k = 0)); [rewrite bool_decide_eq_true_2 by lia|rewrite bool_decide_eq_false_2 by lia]; done. }
      rewrite E2 in E. apply app_inv_head in E. by apply app_inv_head in E.
    Qed.
    Lemma mean_loop k : forall q i xs t b x c j sc outs, xs <> [] -> during H (p_loop th n inj k (Z.of_nat q) (Some xs) t b x c) i j (sc, outs) ->
      sc = Some xs /\ passes i (reverse xs) t b x q c j (concat outs).
    Proof.
      induction k as [|k IH]; intros q i xs t b x c j sc outs Hx D; cbn [p_loop] in D; [done|].
      apply during_bind in D as (u & z & Dz & D). apply count_at in Dz as (m & es & Hm & Hes & -> & ->).
      case_bool_decide as Hlt.
      2:{ destruct D as [-> [= <- <-]]. split; [done|]. eapply ps_end; [exact Hm|exact Hes|lia]. }
      apply during_bind in D as (u & r1 & Dr & D). apply during_lift in Dr as [Hr ->]. rewrite first_names in Hr.
      apply during_bind in D as (i1 & r & Dp & D).
      assert (Hp : picks th H (S m) t b q c r i1).
      { destruct r1 as [y|].
        - destruct Dp as [-> <-]. apply pi_own. apply choose_names. by exists n.
        - apply during_bind in Dp as (u & z2 & Dz & Dp). apply count_at in Dz as (m' & es' & Hm' & Hes' & -> & ->).
          apply during_lift in Dp as [Hl ->]. rewrite last_names in Hl. eapply pi_place; [apply choose_names; by exists n|exact Hm'|exact Hes'|apply choose_names; by exists n]. }
      apply during_bind in D as (u & e & De & D). apply during_read in De as (m1 & Hm1 & He & ->).
      destruct (elements (H m1) c) as [ys|] eqn:Ey; [|by unfold cget in He; rewrite Ey in He]. apply elements_some in Ey.
      rewrite (cget_spec _ _ _ _ Ey), bool_decide_eq_true_2, Nat2Z.id in He by lia. injection He as He.
      destruct e as [[d|]|]; [|done|done].
      apply during_bind in D as (u & [] & Dw & D). apply during_write in Dw as (m2 & Hm2 & Hw & ->).
      apply dset_inside in Hw as (x0 & mm & Hins & Hw).
      apply (mean_inner (S m2) xs d (match r with Some x => x | None => x end)
        (fun out sc3 => '(sc4, outs) <~ p_loop th n inj k (Z.of_nat q + 1) sc3 t b x c; Ret (sc4, out :: outs))) in D as (i2 & out & D1 & D2); [|done].
      apply during_bind in D2 as (u & [sc4 outs'] & D2 & D3). destruct D3 as [-> [= <- <-]].
      replace (Z.of_nat q + 1)%Z with (Z.of_nat (S q)) in D2 by lia. apply IH in D2 as [-> D2]; [|done]. split; [done|]. cbn [concat].
      eapply ps_next; [exact Hm|exact Hes|lia|exact Hp|exact Hm1|exact Ey|exact He|exact Hm2| |exact D1|exact D2]. by exists x0, mm.
    Qed.
    Lemma mean_range i xs t s j sc outs : xs <> [] -> during H (p_range th n inj (Some xs) t s) i j (sc, outs) ->
      sc = Some xs /\ shows_one i (reverse xs) t (TRange s) j (concat outs).
    Proof.
      intros Hx D. unfold p_range in D. destruct (two_ids s) as [d b] eqn:E. apply two_ids_spec in E.
      apply during_bind in D as (u & r & Dr & D). apply during_lift in Dr as [Hr ->]. apply looked in Hr.
      destruct r as [x|]; [|destruct D as [-> [= <- <-]]; split; [done|]; by eapply so_range_unknown].
      apply during_bind in D as (u & cl & Dc & D). unfold p_collection in Dc. apply during_bind in Dc as (i1 & v & Dv & Dc).
      apply data_finds in Dv. apply during_read in Dc as (m1 & Hm1 & [= Ec] & ->).
      apply during_bind in D as (i2 & z & Dz & D). destruct cl as [c|].
      - destruct v as [v|]; [|done]. cbn in Ec. apply as_collection_some in Ec as [-> [xs1 Hxs1]].
        apply count_at in Dz as (m2 & es & Hm2 & Hes & -> & ->). case_bool_decide as Hlen.
        + apply (mean_loop n 0) in D as [-> D]; [|done]. split; [done|].
          eapply (so_range F ord th lg H i (reverse xs) t s d b x c i1 m1 m2 xs1 es); try done. intros ->. cbn in Hlen. lia.
        + assert (es = []) as -> by (destruct es; [done|]; cbn in Hlen; lia).
          apply during_bind in D as (u & q & Dq & D). apply during_lift in Dq as [Hq ->]. apply tried in Hq. apply mean_run in D as [-> D]; [|done]. split; [done|].
          eapply (so_range_empty F ord th lg H i (reverse xs) t s d b x c i1 m1 m2 xs1 q); try done.
      - destruct Dz as [-> <-]. apply during_bind in D as (u & q & Dq & D). apply during_lift in Dq as [Hq ->]. apply tried in Hq.
        apply mean_run in D as [-> D]; [|done]. split; [done|].
        eapply (so_range_none F ord th lg H i (reverse xs) t s d b x v i1 m1 q); try done.
        intros c es -> Hes. cbn in Ec. by destruct (as_collection_none (H m1) (VRef c) Ec c es eq_refl).
    Qed.
    Lemma print_empty i j v e : during H (read (fun h => s <-! sprint F ord n h v; Ok (match s with [] => true | _ => false end))) i j e ->
      exists m u, i <= m /\ sprint F ord n (H m) v = Ok u /\ e = match u with [] => true | _ => false end /\ j = S m.
    Proof. intros D. apply during_read in D as (m & Hm & He & ->). apply obind_ok in He as (u & Hu & [= <-]). by exists m, u. Qed.
    Lemma mean_condition i xs t s j sc outs : xs <> [] -> during H (p_condition F ord th n inj (Some xs) t s) i j (sc, outs) ->
      sc = Some xs /\ shows_one i (reverse xs) t (TCond s) j (concat outs).
    Proof.
      intros Hx D. unfold p_condition in D. destruct (two_ids s) as [d b] eqn:E. apply two_ids_spec in E.
      apply during_bind in D as (u & p & Dp & D). apply during_lift in Dp as [Hp ->]. apply looked in Hp.
      apply during_bind in D as (i1 & value & Dv & D). apply during_bind in Dv as (u & r & Dr & Dv). apply data_finds in Dr. destruct Dv as [-> Hval].
      assert (Hlast : forall i0 outs0, during H (tmp <~ lift (lookup_template th n t (dot b (B "none")));
          '(sc2, outs2) <~ p_run_opt inj (Some xs) (match tmp with Some x => Some x | None => p end); Ret (sc2, [] ++ outs2)) i0 j (sc, outs0) ->
        sc = Some xs /\ exists q, visible th t (dotted b (B "none")) q /\ shows_opt i0 (reverse xs) (match q with Some x => Some x | None => p end) j (concat outs0)).
      { intros i0 outs0 D0. apply during_bind in D0 as (w & q & Dq & D0). apply during_lift in Dq as [Hq ->]. apply looked in Hq.
        apply during_bind in D0 as (w & [sc2 outs2] & D0 & D1). destruct D1 as [-> [= <- <-]]. apply mean_run_opt in D0 as [-> D0]; [|done]. split; [done|]. by exists q. }
      destruct (is_nil value) eqn:En.
      - assert (Hr : r = None \/ r = Some VNil).
        { destruct r as [v|]; [|by left]. right. subst v. by destruct value. }
        assert (D' : during H (tmp <~ lift (lookup_template th n t (dot b (B "none")));
          '(sc2, outs2) <~ p_run_opt inj (Some xs) (match tmp with Some x => Some x | None => p end); Ret (sc2, [] ++ outs2)) u j (sc, outs)).
        { destruct p; exact D. }
        apply Hlast in D' as (-> & q & Hq & D'). split; [done|]. by eapply so_cond_nil.
      - destruct r as [v|]; [|by subst value]. subst v. rename value into v. assert (Hnn : v <> VNil) by (intros ->; done).
        destruct p as [x|].
        + apply during_bind in D as (i2 & [[sc1 outs1] s1] & D1 & D2).
          apply during_bind in D1 as (w & od & Dd & D1). apply during_read in Dd as (m & Hm & [= Ed] & ->). destruct od as [l|].
          * apply as_dataset_some in Ed as [-> Hd]. cbn [spush non_nil lift abind] in D1.
            apply during_bind in D1 as (w & q & Dq & D1). apply during_lift in Dq as [Hq ->]. apply looked in Hq.
            apply during_bind in D1 as (i3 & [sc2 out] & D1 & D3). apply Hinj in D1 as [-> D1]; [|by destruct xs].
            rewrite reverse_snoc in D1. rewrite spop_push in D3. cbn in D3. destruct D3 as [-> [= <- <- <-]].
            apply during_bind in D2 as (w & em & De & D2). apply print_empty in De as (m2 & y & Hm2 & Hy & -> & ->).
            pose proof (object_text _ _ _ _ _ _ Hy) as Hne. destruct y as [|c0 y]; [done|]. destruct D2 as [-> [= <- <-]]. split; [done|]. cbn. rewrite app_nil_r.
            eapply so_cond_dataset; [done|done|exact Dr|exact Hm|done|exact Hq|exact D1|exact Hm2|by exists n].
          * apply during_bind in D1 as (w & sv & Dw & D1). apply during_read in Dw as (m1 & Hm1 & Hw & ->). destruct sv as [|c0 sv].
            -- destruct D1 as [-> [= <- <- <-]]. apply during_bind in D2 as (w & em & De & D2). apply print_empty in De as (m2 & y & Hm2 & Hy & -> & ->).
               assert (y = []) as ->.
               { assert (Hr : (exists l, v = VRef l) \/ forall l, v <> VRef l) by (destruct v; eauto).
                 destruct Hr as [[l ->]|Hr]; [by destruct (object_text _ _ _ _ _ _ Hw)|].
                 pose proof (plain_sprint F ord (H m1) (H m2) v _ n n Hr Hw) as Hw'. rewrite Hw' in Hy. by injection Hy as <-. }
               apply Hlast in D2 as (-> & q & Hq & D2). split; [done|]. eapply (so_cond_empty F ord th lg H i (reverse xs) t s d b v (Some x) q u m2); try done; [lia|by exists n].
            -- apply during_bind in D1 as (w & q & Dq & D1). apply during_lift in Dq as [Hq ->]. apply looked in Hq.
               apply during_bind in D1 as (i3 & [sc2 out] & D1 & D3). apply Hinj in D1 as [-> D1]; [|done]. destruct D3 as [-> [= <- <- <-]].
               apply during_bind in D2 as (w & em & De & D2). apply print_empty in De as (m2 & y & Hm2 & Hy & -> & ->).
               assert (Hne : y <> []).
               { assert (Hr : (exists l, v = VRef l) \/ forall l, v <> VRef l) by (destruct v; eauto).
                 destruct Hr as [[l ->]|Hr]; [by eapply object_text|].
                 pose proof (plain_sprint F ord (H m1) (H m2) v _ n n Hr Hw) as Hw'. rewrite Hw' in Hy. by injection Hy as <-. }
               destruct y as [|c1 y]; [done|]. destruct D2 as [-> [= <- <-]]. split; [done|]. cbn. rewrite app_nil_r.
               eapply (so_cond_value F ord th lg H i (reverse xs) t s d b x v (c0 :: sv) q u m m1 i3 m2); try done; [|by exists n|by exists n].
               intros l ->. by apply (as_dataset_none (H m) (VRef l)).
        + cbn [abind] in D. apply during_bind in D as (w & em & De & D). apply print_empty in De as (m & y & Hm & Hy & -> & ->). destruct y as [|c0 y].
          * apply Hlast in D as (-> & q & Hq & D). split; [done|]. eapply (so_cond_empty F ord th lg H i (reverse xs) t s d b v None q u m); try done. by exists n.
          * destruct D as [-> [= <- <-]]. split; [done|]. eapply so_cond_unknown; [done|done|exact Dr|done|exact Hm|by exists n|done].
    Qed.
    Lemma mean_param i xs t k j sc outs : xs <> [] -> k <> TClose -> (forall nm, k <> TOpen nm) ->
      during H (p_param F ord th n lg inj (Some xs) t (stored k)) i j (sc, outs) -> sc = Some xs /\ shows_one i (reverse xs) t k j (concat outs).
    Proof.
      intros Hx Hc Ho D. destruct k as [s|s|s|s|s|s|s|s|s|]; try done.
      - cbn in D. destruct D as [-> [= <- <-]]. split; [done|]. cbn. rewrite app_nil_r. constructor.
      - cbn in D. destruct D as [-> [= <- <-]]. split; [done|]. constructor.
      - cbn in D. destruct D as [-> [= <- <-]]. split; [done|]. destruct lg as [g|] eqn:El.
        + cbn. rewrite app_nil_r. unfold lget. destruct (l_entries g !! s) as [v|] eqn:Ev.
          * by eapply so_lang.
          * apply so_lang_missing. by intros g' [= <-].
        + by apply so_lang_missing.
      - change (during H (p_reference F ord th n inj (Some xs) t (split_on ":"%char s)) i j (sc, outs)) in D. by apply mean_reference.
      - change (during H (p_range th n inj (Some xs) t s) i j (sc, outs)) in D. by apply mean_range.
      - change (during H (p_condition F ord th n inj (Some xs) t s) i j (sc, outs)) in D. by apply mean_condition.
      - unfold p_param in D. cbn [stored TemplateModel.p_data p_type] in D.
        repeat (rewrite bool_decide_eq_false_2 in D by done). rewrite bool_decide_eq_true_2 in D by done.
        destruct xs as [|d xs]; [done|]. rewrite reverse_cons. case_bool_decide as Hd.
        + apply during_bind in D as (u & o & Do & D). apply during_read in Do as (m & Hm & Hs & ->). destruct D as [-> [= <- <-]]. split; [done|]. cbn. rewrite app_nil_r.
          apply so_dump; [done|done|by exists n].
        + destruct D as [-> [= <- <-]]. split; [done|]. apply so_dump_other; tauto.
      - change (during H (d <~ p_string F ord n xs s; Ret (Some xs, [d])) i j (sc, outs)) in D.
        apply during_bind in D as (u & o & Do & D). destruct D as [-> [= <- <-]]. split; [done|]. cbn. rewrite app_nil_r. apply so_var. by apply (string_says n).
      - by destruct (Ho s).
    Qed.
    Lemma mean_params xs t l : xs <> [] -> Forall (fun k => k <> TClose /\ forall nm, k <> TOpen nm) l -> forall i j sc outs,
      during H (p_params F ord th n lg inj (Some xs) t (map stored l)) i j (sc, outs) -> sc = Some xs /\ shows_all F ord th lg H i (reverse xs) t l j (concat outs).
    Proof.
      intros Hx Hl. induction Hl as [|k l [Hc Ho] Hl IH]; intros i j sc outs D.
      - destruct D as [-> [= <- <-]]. split; [done|constructor].
      - cbn [map p_params] in D. apply during_bind in D as (i1 & [sc1 a] & D1 & D). apply mean_param in D1 as [-> D1]; try done.
        apply during_bind in D as (u & [sc2 b] & D2 & D). apply IH in D2 as [-> D2]. destruct D as [-> [= <- <-]]. split; [done|]. rewrite concat_app. by eapply sa_cons.
    Qed.
  End Body.
  Lemma mean_injector n : compiled th -> forall i xs t j sc out, xs <> [] -> during H (p_injector F ord th n lg (Some xs) t) i j (sc, out) ->
    sc = Some xs /\ shows i (reverse xs) t j out.
  Proof.
    intros Hcomp. induction n as [|n IH]; intros i xs t j sc out Hx D; cbn [p_injector] in D; [done|].
    destruct (th !! t) as [T|] eqn:HT; [|done]. destruct (t_root T) as [ps|] eqn:Hr.
    - destruct (Hcomp t T ps HT Hr) as (l & -> & Hl). apply during_bind in D as (u & [sc1 outs] & D1 & D). destruct D as [-> [= <- <-]].
      apply mean_params in D1 as [-> D1]; [|exact IH|done|done]. split; [done|]. by eapply sh_root.
    - destruct D as [-> [= <- <-]]. split; [done|]. by eapply sh_not_compiled.
  Qed.
End Sound.
