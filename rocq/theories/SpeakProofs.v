(** * Executing templates while the languages change: alone; one page. *)
From Verif Require Import GoBase GoStrings GoStringsProofs Regex DatasetModel LangModel DatasetSpec DatasetProofs DatasetProofs2 DatasetProofs3
  DatasetProofs5 TemplateModel TemplateSpec TemplateProofs2 TemplateProofs3 TemplateProofs4 TemplateProofs5 TemplateProofs6
  RenderSpec RenderProofs RenderProofs2 RenderProofs3 RenderProofs5 HoleSpec TransSpec TransProofs SpeakModel SpeakSpec.
Local Open Scope Z_scope.

(** ** A goroutine that is alone *)
Lemma hear_bind {A C} ls (m : talk A) (f : A -> talk C) : hear ls (kbind m f) = obind (hear ls m) (fun a => hear ls (f a)).
Proof. by induction m as [a| | |l name k IH]; cbn [kbind hear]. Qed.
Lemma hear_think {A} ls (r : outcome A) : hear ls (think r) = r.
Proof. by destruct r. Qed.
Section Alone.
  Context (F : golib) (ord : heap -> gmap bytes value -> list (bytes * value)) (th : theap) (ls : nat -> lang).
  Notation istate := (heap * option (list loc))%type.
  Section Body.
    Context (n lg : nat) (sinj : istate -> loc -> talk (istate * bytes)) (inj : istate -> loc -> outcome (istate * bytes)).
    Context (IH : forall st t, hear ls (sinj st t) = inj st t).
    Local Tactic Notation "go" simple_intropattern(y) := rewrite ?hear_bind, ?hear_think, ?IH;
      match goal with |- obind ?e _ = obind ?e _ => destruct e as [y| |]; cbn [obind]; try done end.
    Lemma alone_run st t : hear ls (s_run sinj st t) = run_on inj st t.
    Proof using IH. unfold s_run, run_on. by go [? ?]. Qed.
    Lemma alone_run_opt st q : hear ls (s_run_opt sinj st q) = run_opt inj st q.
    Proof using IH. destruct q; [apply alone_run|done]. Qed.
    Lemma alone_reference st t xid : hear ls (s_reference F ord th n sinj st t xid) = do_reference F ord th n inj st t xid.
    Proof using IH.
      unfold s_reference, do_reference.
      destruct xid as [|x [|y [|z [|w l]]]]; try (go q0; match goal with |- context [match ?o with Some _ => _ | None => _ end] => destruct o; [apply alone_run|done] end).
      - go [u|]. go v. destruct (v ≫= as_dataset st.1); [|apply alone_run]. go sc1. go [st2 out]. go sc3.
      - go v. go r. apply alone_run_opt.
    Qed.
    Lemma alone_loop k : forall i st t b x cl, hear ls (s_loop th n sinj k i st t b x cl) = do_loop th n inj k i st t b x cl.
    Proof using IH.
      induction k as [|k IHk]; intros i st t b x cl; cbn [s_loop do_loop]; [done|]. go c. case_bool_decide; [|done]. go r. go e.
      destruct e as [[d|]|]; try done. go h1. go sc1. go [st2 out]. go sc3. rewrite hear_bind, IHk. destruct (do_loop th n inj k (i + 1) (st2.1, sc3) t b x cl) as [[st4 outs]| |]; done.
    Qed.
    Lemma alone_range st t s : hear ls (s_range th n sinj st t s) = do_range th n inj st t s.
    Proof using IH.
      unfold s_range, do_range. destruct (two_ids s) as [d b]. go [x|]. destruct st.2 as [xs|]; [|done]. go cl. go c.
      destruct cl as [l|]; [case_bool_decide; [apply alone_loop|]|]; go q; apply alone_run.
    Qed.
    Lemma alone_condition st t s : hear ls (s_condition F ord th n sinj st t s) = do_condition F ord th n inj st t s.
    Proof using IH.
      unfold s_condition, do_condition. destruct (two_ids s) as [d b]. go a. go v. rewrite hear_bind.
      match goal with |- obind ?e _ = obind ?e' _ => assert (E : e = e') end.
      { destruct a as [x|]; [|done]. destruct (is_nil v); [done|]. destruct (as_dataset st.1 v).
        - go sc1. go q. cbv zeta. go [st2 out]. go sc3.
        - go w. destruct w; [done|]. go q. cbv zeta. by go [st2 out]. }
      rewrite E. clear E. match goal with |- obind ?e _ = obind ?e _ => destruct e as [[[st1 outs] subt1]| |]; cbn [obind]; try done end.
      go e. destruct e; [|done]. go q. rewrite hear_bind, alone_run_opt. match goal with |- obind ?e _ = obind ?e _ => destruct e as [[st2 outs2]| |]; done end.
    Qed.
    Lemma alone_param st t p : hear ls (s_param F ord th n lg sinj st t p) = do_param F ord th n (Some (ls lg)) inj st t p.
    Proof using IH.
      unfold s_param, do_param. cbv zeta. case_bool_decide; [done|]. case_bool_decide; [done|]. case_bool_decide; [done|].
      case_bool_decide; [apply alone_reference|]. case_bool_decide; [destruct st.2; [by go v|done]|].
      case_bool_decide; [apply alone_range|]. case_bool_decide; [apply alone_condition|]. case_bool_decide; [|done].
      destruct st.2 as [[|d l]|]; try done. case_bool_decide; [|done]. by go v.
    Qed.
    Lemma alone_params t ps : forall st, hear ls (s_params F ord th n lg sinj st t ps) = do_params F ord th n (Some (ls lg)) inj st t ps.
    Proof using IH.
      induction ps as [|p ps IHp]; intros st; cbn [s_params do_params]; [done|]. rewrite hear_bind, alone_param.
      match goal with |- obind ?e _ = obind ?e _ => destruct e as [[st1 a]| |]; cbn [obind]; try done end.
      rewrite hear_bind, IHp. match goal with |- obind ?e _ = obind ?e _ => destruct e as [[st2 b]| |]; done end.
    Qed.
  End Body.
  Lemma alone_inject n lg : forall st t, hear ls (s_inject F ord th n lg st t) = injector F ord th n (Some (ls lg)) st t.
  Proof.
    induction n as [|n IH]; intros st t; cbn [s_inject injector]; [done|]. destruct (th !! t) as [T|]; [|done]. destruct (t_root T) as [ps|]; [|done].
    rewrite hear_bind, (alone_params n lg _ _ IH). match goal with |- obind ?e _ = obind ?e _ => destruct e as [[st1 outs]| |]; done end.
  Qed.
  Lemma alone_speaks known n h t d : hear ls (s_execute F ord known th n h t d) = execute F ord (as_langs known ls) th n h t (Some d).
  Proof.
    unfold s_execute, execute. rewrite hear_bind, hear_think. destruct (dget n h d (B "#")) as [r| |]; cbn [obind]; try done.
    assert (N : forall lg, lg = None -> hear ls ('(st, out) <~ think (injector F ord th n None (h, Some [d]) t); Say (st.1, out)) =
      ('(st, out) <-! injector F ord th n lg (h, Some [d]) t; Ok (st.1, out))).
    { intros lg ->. rewrite hear_bind, hear_think. destruct (injector F ord th n None (h, Some [d]) t) as [[st out]| |]; done. }
    destruct r as [v|]; [|by apply N]. destruct v as [| | | | | | | | | | | | |k]; try by apply N.
    unfold as_langs. destruct (known k); [|by apply N]. rewrite hear_bind, alone_inject.
    destruct (injector F ord th n (Some (ls k)) (h, Some [d]) t) as [[st out]| |]; done.
  Qed.
End Alone.

(** ** With languages that change *)
Inductive runs {A} (H : nat -> nat -> lang) : nat -> talk A -> nat -> outcome A -> Prop :=
| ru_say i a : runs H i (Say a) i (Ok a)
| ru_break i : runs H i Break i Panic
| ru_tired i : runs H i Tired i NoFuel
| ru_ask i m l name k j r : (i <= m)%nat -> runs H (S m) (k (lget (H m l) name)) j r -> runs H i (Ask l name k) j r.
Lemma runs_bind {A C} H (m : talk A) (f : A -> talk C) i j r : runs H i (kbind m f) j r ->
  exists i' r0, runs H i m i' r0 /\ match r0 with Ok a => runs H i' (f a) j r | Panic => i' = j /\ r = Panic | NoFuel => i' = j /\ r = NoFuel end.
Proof.
  revert i. induction m as [a| | |l name k IH]; intros i Hr; cbn [kbind] in Hr.
  - exists i, (Ok a). split; [constructor|done].
  - inversion Hr; subst. eexists j, Panic. split; [constructor|done].
  - inversion Hr; subst. eexists j, NoFuel. split; [constructor|done].
  - inversion Hr; subst. match goal with H1 : runs _ (S ?m0) _ _ _ |- _ => apply IH in H1 as (i' & r0 & H1 & H2) end. exists i', r0. split; [by econstructor|done].
Qed.
Lemma runs_assoc {A C D} H (m : talk A) (f : A -> talk C) (g : C -> talk D) i j r :
  runs H i (kbind (kbind m f) g) j r -> runs H i (kbind m (fun x => kbind (f x) g)) j r.
Proof.
  revert i. induction m as [a| | |l name k IH]; intros i Hr; cbn [kbind] in *; try done. inversion Hr; subst. econstructor; [done|]. by apply IH.
Qed.
Lemma during_app H l i p j a q j' b : during H l i p j a -> during H l j q j' b -> during H l i (p ++ q) j' (a ++ b).
Proof. induction 1; intros Hd; cbn [app]; [done|rewrite <- app_assoc; constructor; auto|rewrite <- app_assoc; econstructor; eauto]. Qed.

Section Page.
  Context (F : golib) (ord : heap -> gmap bytes value -> list (bytes * value)) (th : theap).
  Context (t0 : loc) (lg : nat).
  Notation istate := (heap * option (list loc))%type.
  Notation good := (entries_from th t0).
  Definition ends {X} (H : nat -> nat -> lang) (i : nat) (r : outcome (X * list part)) (j : nat) (out : bytes) (res : outcome X) : Prop :=
    match r with Ok (x, page) => res = Ok x /\ during H lg i page j out | Panic => res = Panic | NoFuel => res = NoFuel end.
  Definition good_r {X} (r : outcome (X * list part)) : Prop := forall x page, r = Ok (x, page) -> good page.
  (** One page, whatever the languages do. *)
  Definition s_text {X} (m : talk (X * bytes)) : Prop :=
    exists r, good_r r /\ forall H i j res, runs H i m j res ->
      match r with Ok (x, page) => exists out, res = Ok (x, out) /\ during H lg i page j out | Panic => res = Panic | NoFuel => res = NoFuel end.
  (** The same behind a text that is already there. *)
  Definition s_pre {X} (K : bytes -> talk (X * list bytes)) : Prop :=
    exists r, good_r r /\ forall o H i j res, runs H i (K o) j res ->
      match r with Ok (x, page) => exists outs rest, res = Ok (x, outs) /\ concat outs = o ++ rest /\ during H lg i page j rest | Panic => res = Panic | NoFuel => res = NoFuel end.
  Definition s_page {X} (m : talk (X * list bytes)) : Prop :=
    exists r, good_r r /\ forall H i j res, runs H i m j res ->
      match r with Ok (x, page) => exists outs, res = Ok (x, outs) /\ during H lg i page j (concat outs) | Panic => res = Panic | NoFuel => res = NoFuel end.
  Lemma good_ok {X} (x : X) page : good page -> good_r (Ok (x, page)).
  Proof. by intros Hg ? ? [= _ <-]. Qed.
  Lemma sp_ret {X} (x : X) : s_page (Say (x, [])).
  Proof. exists (Ok (x, [])). split; [apply good_ok, good_nil|]. intros H i j res Hr. inversion Hr; subst. exists []. split; [done|constructor]. Qed.
  Lemma sp_fixed {X} (x : X) s : s_page (Say (x, [s])).
  Proof.
    exists (Ok (x, [Fixed s])). split; [apply good_ok, good_fixed|]. intros H i j res Hr. inversion Hr; subst. exists [s]. split; [done|]. cbn. constructor. constructor.
  Qed.
  Lemma sp_break {X} : s_page (Break : talk (X * list bytes)).
  Proof. exists Panic. split; [done|]. intros H i j res Hr. by inversion Hr. Qed.
  Lemma sp_tired {X} : s_page (Tired : talk (X * list bytes)).
  Proof. exists NoFuel. split; [done|]. intros H i j res Hr. by inversion Hr. Qed.
  Lemma sp_think {Y X} (e : outcome Y) (K : Y -> talk (X * list bytes)) : (forall y, e = Ok y -> s_page (K y)) -> s_page (y <~ think e; K y).
  Proof. intros H. destruct e as [y| |]; cbn [think kbind]; [by apply H|apply sp_break|apply sp_tired]. Qed.
  Lemma pre_one {X} (x : X) : s_pre (fun o => Say (x, [o])).
  Proof.
    exists (Ok (x, [])). split; [apply good_ok, good_nil|]. intros o H i j res Hr. inversion Hr; subst. exists [o], []. split_and!; [done|done|constructor].
  Qed.
  Lemma pre_think {Y X} (e : outcome Y) (K : bytes -> Y -> talk (X * list bytes)) : (forall y, e = Ok y -> s_pre (fun o => K o y)) -> s_pre (fun o => y <~ think e; K o y).
  Proof.
    intros H. destruct e as [y| |]; cbn [think kbind]; [by apply H| |]; [exists Panic|exists NoFuel]; (split; [done|]); intros o H0 i j res Hr; by inversion Hr.
  Qed.
  Lemma pre_front {X} (m : talk (X * list bytes)) : s_page m -> s_pre (fun o => '(x, outs) <~ m; Say (x, o :: outs)).
  Proof.
    intros (r & Hg & Hm). exists r. split; [done|]. intros o H i j res Hr. apply runs_bind in Hr as (i' & r0 & H1 & H2). apply Hm in H1.
    destruct r as [[x page]| |].
    - destruct H1 as (outs & -> & Hd). inversion H2; subst. exists (o :: outs), (concat outs). by split_and!.
    - subst r0. by destruct H2.
    - subst r0. by destruct H2.
  Qed.
  Lemma sp_text {Z X} (m : talk (Z * bytes)) (K : Z * bytes -> talk (X * list bytes)) : s_text m -> (forall z, s_pre (fun o => K (z, o))) -> s_page (kbind m K).
  Proof.
    intros (r & Hg & Hm) HK. destruct r as [[z page]| |].
    - destruct (HK z) as (r' & Hg' & Hk). destruct r' as [[x page']| |].
      + exists (Ok (x, page ++ page')). split; [apply good_ok, good_app; [by eapply Hg|by eapply Hg']|]. intros H i j res Hr. apply runs_bind in Hr as (i' & r0 & H1 & H2).
        apply Hm in H1 as (out & -> & Hd). apply Hk in H2 as (outs & rest & -> & E & Hd'). exists outs. split; [done|]. rewrite E. by eapply during_app.
      + exists Panic. split; [done|]. intros H i j res Hr. apply runs_bind in Hr as (i' & r0 & H1 & H2). apply Hm in H1 as (out & -> & Hd). by apply Hk in H2.
      + exists NoFuel. split; [done|]. intros H i j res Hr. apply runs_bind in Hr as (i' & r0 & H1 & H2). apply Hm in H1 as (out & -> & Hd). by apply Hk in H2.
    - exists Panic. split; [done|]. intros H i j res Hr. apply runs_bind in Hr as (i' & r0 & H1 & H2). apply Hm in H1. subst r0. by destruct H2.
    - exists NoFuel. split; [done|]. intros H i j res Hr. apply runs_bind in Hr as (i' & r0 & H1 & H2). apply Hm in H1. subst r0. by destruct H2.
  Qed.
  Lemma sp_app {Z X} (m : talk (Z * list bytes)) (g : Z -> talk (X * list bytes)) :
    s_page m -> (forall z, s_page (g z)) -> s_page ('(z, a) <~ m; '(x, b) <~ g z; Say (x, a ++ b)).
  Proof.
    intros (r & Hg & Hm) HK. destruct r as [[z page]| |].
    - destruct (HK z) as (r' & Hg' & Hk). exists (match r' with Ok (x, page') => Ok (x, page ++ page') | Panic => Panic | NoFuel => NoFuel end).
      split; [destruct r' as [[x page']| |]; try done; apply good_ok, good_app; [by eapply Hg|by eapply Hg']|].
      intros H i j res Hr. apply runs_bind in Hr as (i' & r0 & H1 & H2). apply Hm in H1 as (a & -> & Hd). apply runs_bind in H2 as (i2 & r2 & H3 & H4). apply Hk in H3.
      destruct r' as [[x page']| |].
      + destruct H3 as (b & -> & Hd'). inversion H4; subst. exists (a ++ b). split; [done|]. rewrite concat_app. by eapply during_app.
      + subst r2. by destruct H4.
      + subst r2. by destruct H4.
    - exists Panic. split; [done|]. intros H i j res Hr. apply runs_bind in Hr as (i' & r0 & H1 & H2). apply Hm in H1. subst r0. by destruct H2.
    - exists NoFuel. split; [done|]. intros H i j res Hr. apply runs_bind in Hr as (i' & r0 & H1 & H2). apply Hm in H1. subst r0. by destruct H2.
  Qed.
  Lemma sp_ext {X} (m m' : talk (X * list bytes)) : (forall H i j res, runs H i m j res -> runs H i m' j res) -> s_page m' -> s_page m.
  Proof. intros He (r & Hg & Hm). exists r. split; [done|]. intros H i j res Hr. by apply Hm, He. Qed.

  Section Body.
    Context (n : nat) (inj : istate -> loc -> talk (istate * bytes)).
    Context (IH : forall st t, reaches th t0 t -> s_text (inj st t)).
    Lemma sp_run st t : reaches th t0 t -> s_page (s_run inj st t).
    Proof using IH. intros Hr. unfold s_run. apply sp_text; [by apply IH|]. intros z. apply pre_one. Qed.
    Lemma sp_run_opt st q : (forall t, q = Some t -> reaches th t0 t) -> s_page (s_run_opt inj st q).
    Proof using IH. intros Hr. destruct q as [t|]; cbn [s_run_opt]; [by apply sp_run, Hr|apply sp_ret]. Qed.
    Lemma sp_inside st t : reaches th t0 t -> s_page ('(st2, out) <~ inj st t; sc3 <~ think (spop st2.2); Say ((st2.1, sc3), [out])).
    Proof using IH.
      intros Hr. apply sp_text; [by apply IH|]. intros z. apply (pre_think _ (fun o sc3 => Say ((z.1, sc3), [o]))). intros sc3 _. apply pre_one.
    Qed.
    Lemma sp_reference st t xid : reaches th t0 t -> s_page (s_reference F ord th n inj st t xid).
    Proof using IH.
      intros Hr. unfold s_reference.
      assert (One : forall x, s_page (r <~ think (lookup_template th n t x); match r with None => Say (st, []) | Some subt => s_run inj st subt end)).
      { intros x. apply sp_think. intros [subt|] Hl; [|apply sp_ret]. apply sp_run. exact (reach_get th t0 _ _ _ _ Hr Hl). }
      destruct xid as [|x [|y [|z [|w l]]]]; try apply One.
      - apply sp_think. intros [subt|] Hl; [|apply sp_ret]. pose proof (reach_get th t0 _ _ _ _ Hr Hl) as Hs.
        apply sp_think. intros v _. destruct (v ≫= as_dataset st.1) as [d|]; [|by apply sp_run]. apply sp_think. intros sc1 _. by apply sp_inside.
      - apply sp_think. intros v _. apply sp_think. intros r Hq. apply sp_run_opt. intros s ->. exact (reach_try th t0 _ _ _ _ Hr Hq).
    Qed.
    Lemma sp_loop k : forall i st t b x cl, reaches th t0 t -> reaches th t0 x -> s_page (s_loop th n inj k i st t b x cl).
    Proof using IH.
      induction k as [|k IHk]; intros i st t b x cl Hr Hx; cbn [s_loop]; [apply sp_tired|].
      apply sp_think. intros c _. case_bool_decide; [|apply sp_ret]. apply sp_think. intros r Hq. apply sp_think. intros e _.
      destruct e as [[d|]|]; try apply sp_break. apply sp_think. intros h1 _. apply sp_think. intros sc1 _.
      apply sp_text. { apply IH. destruct r; [exact (reach_try th t0 _ _ _ _ Hr Hq)|done]. }
      intros z. apply (pre_think _ (fun o sc3 => '(st4, outs) <~ s_loop th n inj k (i + 1) (z.1, sc3) t b x cl; Say (st4, o :: outs))). intros sc3 _. by apply pre_front, IHk.
    Qed.
    Lemma sp_range st t s : reaches th t0 t -> s_page (s_range th n inj st t s).
    Proof using IH.
      intros Hr. unfold s_range. destruct (two_ids s) as [d b]. apply sp_think. intros r Hl. destruct r as [x|]; [|apply sp_ret].
      pose proof (reach_get th t0 _ _ _ _ Hr Hl) as Hx. destruct st.2 as [xs|]; [|apply sp_ret].
      assert (None_ : s_page (tmp <~ think (try_names th n t [dot b (B "none")]); s_run inj st (match tmp with Some x => x | None => x end))).
      { apply sp_think. intros tmp Ht. apply sp_run. destruct tmp; [exact (reach_try th t0 _ _ _ _ Hr Ht)|done]. }
      apply sp_think. intros cl _. apply sp_think. intros c _. destruct cl as [l|]; [|done]. case_bool_decide; [by apply sp_loop|done].
    Qed.
    Lemma sp_condition st t s : reaches th t0 t -> s_page (s_condition F ord th n inj st t s).
    Proof using IH.
      intros Hr. unfold s_condition. destruct (two_ids s) as [d b]. apply sp_think. intros subt Hl. apply sp_think. intros v _.
      assert (Hs : forall x, subt = Some x -> reaches th t0 x) by (intros x ->; exact (reach_get th t0 _ _ _ _ Hr Hl)).
      pose (T := fun (st1 : istate) (outs : list bytes) (subt1 : option loc) =>
        empty <~ think (if is_nil v then Ok true else s <-! sprint F ord n st1.1 v; Ok (match s with [] => true | _ => false end));
        if (empty : bool) then
          tmp <~ think (lookup_template th n t (dot b (B "none")));
          '(st2, outs2) <~ s_run_opt inj st1 (match tmp with Some x => Some x | None => subt1 end);
          Say (st2, outs ++ outs2)
        else Say (st1, outs)).
      assert (T0 : forall st1 subt1, (forall x, subt1 = Some x -> reaches th t0 x) -> s_page (T st1 [] subt1)).
      { intros st1 subt1 H1. unfold T. apply sp_think. intros e _. destruct e; [|apply sp_ret]. apply sp_think. intros tmp Ht.
        refine (sp_app (Say (st1, [])) (fun st1 => s_run_opt inj st1 (match tmp with Some x => Some x | None => subt1 end)) (sp_ret st1) _).
        intros z. apply sp_run_opt. intros x Hx. destruct tmp as [y|]; [|by apply H1]. injection Hx as ->. exact (reach_get th t0 _ _ _ _ Hr Ht). }
      assert (T1 : forall st1 x, reaches th t0 x -> s_pre (fun o => T st1 [o] (Some x))).
      { intros st1 x Hx. unfold T. apply (pre_think _ (fun o empty => if (empty : bool) then
          tmp <~ think (lookup_template th n t (dot b (B "none")));
          '(st2, outs2) <~ s_run_opt inj st1 (match tmp with Some x => Some x | None => Some x end);
          Say (st2, [o] ++ outs2)
        else Say (st1, [o]))). intros e _. destruct e; [|apply pre_one].
        apply (pre_think _ (fun o tmp => '(st2, outs2) <~ s_run_opt inj st1 (match tmp with Some x => Some x | None => Some x end); Say (st2, [o] ++ outs2))).
        intros tmp Ht. apply pre_front. apply sp_run_opt. intros y Hy. destruct tmp as [w|]; injection Hy as ->; [exact (reach_get th t0 _ _ _ _ Hr Ht)|done]. }
      destruct subt as [x|]; [|by apply (T0 st None)]. specialize (Hs x eq_refl).
      destruct (is_nil v) eqn:En; [apply (T0 st (Some x)); by intros ? [= ->]|].
      destruct (as_dataset st.1 v) as [dd|].
      - destruct (spush st.2 dd) as [sc1| |]; cbn [think kbind]; [|apply sp_break|apply sp_tired].
        destruct (lookup_template th n t (dot b (B "array"))) as [tmp| |] eqn:Ht; cbn [think kbind]; [|apply sp_break|apply sp_tired]. cbv zeta.
        assert (Hy : reaches th t0 (match tmp with Some y => y | None => x end)) by (destruct tmp; [exact (reach_get th t0 _ _ _ _ Hr Ht)|done]).
        eapply sp_ext; [intros H i j res Hr0; exact (runs_assoc _ _ _ _ _ _ _ Hr0)|]. apply sp_text; [by apply IH|]. intros z.
        destruct (spop z.2) as [sc3| |] eqn:Hz; cbn [think kbind].
        + exact (T1 (z.1, sc3) _ Hy).
        + exists Panic. split; [done|]. intros o H i j res Hr0. by inversion Hr0.
        + exists NoFuel. split; [done|]. intros o H i j res Hr0. by inversion Hr0.
      - destruct (sprint F ord n st.1 v) as [w| |] eqn:Hw; cbn [think kbind]; [|apply sp_break|apply sp_tired].
        destruct w as [|c w]; [apply (T0 st (Some x)); by intros ? [= ->]|].
        destruct (lookup_template th n t (dot b (c :: w))) as [tmp| |] eqn:Ht; cbn [think kbind]; [|apply sp_break|apply sp_tired]. cbv zeta.
        assert (Hy : reaches th t0 (match tmp with Some y => y | None => x end)) by (destruct tmp; [exact (reach_get th t0 _ _ _ _ Hr Ht)|done]).
        eapply sp_ext; [intros H i j res Hr0; exact (runs_assoc _ _ _ _ _ _ _ Hr0)|]. apply sp_text; [by apply IH|]. intros z. exact (T1 z _ Hy).
    Qed.
    Lemma sp_param st t T ps p : reaches th t0 t -> th !! t = Some T -> t_root T = Some ps -> p ∈ ps -> s_page (s_param F ord th n lg inj st t p).
    Proof using IH.
      intros Hr Ht Hps Hp. unfold s_param. cbv zeta.
      case_bool_decide as E0; [apply sp_fixed|]. case_bool_decide as E1; [apply sp_ret|]. case_bool_decide as E2.
      { exists (Ok (st, [Entry (p_data p)])). split.
        - apply good_ok. intros nm Hn. apply elem_of_list_singleton in Hn. injection Hn as ->. exists t, T, ps. split_and!; try done.
          destruct p as [ty da]. cbn in E2 |- *. subst ty. done.
        - intros H i j res Hr0. inversion Hr0 as [| | |? m ? ? ? ? ? Hm Hk]; subst. inversion Hk; subst. eexists. split; [done|]. cbn [concat].
          change (lget (H m lg) (p_data p)) with (spoken (Some (H m lg)) (Entry (p_data p))). econstructor; [done|constructor]. }
      case_bool_decide; [by apply sp_reference|]. case_bool_decide.
      { destruct st.2; [|apply sp_ret]. apply sp_think. intros ? _. apply sp_fixed. }
      case_bool_decide; [by apply sp_range|]. case_bool_decide; [by apply sp_condition|]. case_bool_decide; [|apply sp_fixed].
      destruct st.2 as [[|d l]|]; try apply sp_ret. case_bool_decide; [|apply sp_ret]. apply sp_think. intros ? _. apply sp_fixed.
    Qed.
    Lemma sp_params t T ps ps' st : reaches th t0 t -> th !! t = Some T -> t_root T = Some ps -> (forall p, p ∈ ps' -> p ∈ ps) ->
      s_page (s_params F ord th n lg inj st t ps').
    Proof using IH.
      intros Hr Ht Hps. revert st. induction ps' as [|p ps' IHp]; intros st Hin; cbn [s_params]; [apply sp_ret|].
      apply sp_app; [eapply sp_param; try done; apply Hin; by left|]. intros z. apply IHp. intros q Hq. apply Hin. by right.
    Qed.
  End Body.
  Lemma s_injects n : forall st t, reaches th t0 t -> s_text (s_inject F ord th n lg st t).
  Proof.
    induction n as [|n IH]; intros st t Hr; cbn [s_inject].
    { exists NoFuel. split; [done|]. intros H i j res Hr0. by inversion Hr0. }
    destruct (th !! t) as [T|] eqn:Ht; [|exists Panic; split; [done|]; intros H i j res Hr0; by inversion Hr0].
    destruct (t_root T) as [ps|] eqn:Hps.
    - destruct (sp_params n (s_inject F ord th n lg) IH t T ps ps st Hr Ht Hps ltac:(done)) as (r & Hg & Hm). exists r. split; [done|].
      intros H i j res Hr0. apply runs_bind in Hr0 as (i' & r0 & H1 & H2). apply Hm in H1. destruct r as [[x page]| |].
      + destruct H1 as (outs & -> & Hd). inversion H2; subst. by eexists.
      + subst r0. by destruct H2.
      + subst r0. by destruct H2.
    - eexists (Ok (st, [Fixed (B "Error, no template.Root compiled")])). split; [apply good_ok, good_fixed|]. intros H i j res Hr0. inversion Hr0; subst.
      eexists. split; [done|]. exact (du_fixed H lg j (B "Error, no template.Root compiled") [] j [] (du_nil H lg j)).
  Qed.
End Page.
