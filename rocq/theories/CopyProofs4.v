(** * A goroutine alone; goroutines come to an end (C117). *)
From Verif Require Import GoBase GoStrings DatasetModel LangModel DatasetSpec TemplateModel TemplateSpec CopyModel CopySpec.

Lemma talone_bind {A C} (m : tact A) (f : A -> tact C) th : talone (tbind m f) th = ('(th1, a) <-! talone m th; talone (f a) th1).
Proof. revert th. induction m as [a| | |w k IH]; intros th; [done..|]. cbn [tbind talone]. apply IH. Qed.
(** ** Execute *)
Definition reads {A} (th : theap) (p : tact A) (o : outcome A) : Prop := talone p th = (a <-! o; Ok (th, a)).
Lemma reads_bind {A C} th (p : tact A) o (f : A -> tact C) g : reads th p o -> (forall a, reads th (f a) (g a)) -> reads th (tbind p f) (obind o g).
Proof. intros Hp Hf. unfold reads. rewrite talone_bind, Hp. destruct o as [a| |]; cbn [obind]; [apply Hf|done..]. Qed.
Lemma reads_lift {A} th (o : outcome A) : reads th (tlift o) o.
Proof. by destruct o. Qed.
Ltac rd_step := match goal with
  | |- reads _ (tbind _ _) (obind _ _) => apply reads_bind; [|intros ?]
  | |- reads _ (tlift _) _ => apply reads_lift
  | |- reads _ (TRet _) (Ok _) => reflexivity
  | |- reads _ TFail Panic => reflexivity
  | |- reads _ TOut NoFuel => reflexivity
  | |- reads _ (match ?x with _ => _ end) (match ?x with _ => _ end) => destruct x
  | |- reads _ (match ?x with _ => _ end) _ => destruct x
  | |- reads _ (let _ := _ in _) _ => cbv zeta
  end.
Ltac rd := repeat rd_step.
Lemma reads_get th name n : forall t, reads th (t_get n t name) (lookup_template th n t name).
Proof.
  induction n as [|n IH]; intros t; [done|]. cbn [t_get lookup_template]. unfold reads, t_up. cbn. destruct (th !! t) as [T|] eqn:HT; [|done].
  assert (Hup : reads th (t_up t (fun x => t_get n x name)) (match t_father T with Some f => lookup_template th n f name | None => Ok None end)).
  { unfold reads, t_up. cbn. rewrite HT. cbn. destruct (t_father T) as [f|] eqn:Ef; cbn; [|done]. rewrite HT. cbn. rewrite Ef. apply IH. }
  destruct (t_subs T) as [m|] eqn:Em; cbn.
  - rewrite HT. cbn. rewrite Em. cbn. destruct (m !! name) as [x|]; cbn; [done|]. apply Hup.
  - apply Hup.
Qed.
Section Reads.
  Context (F : golib) (ord : heap -> gmap bytes value -> list (bytes * value)) (langs : nat -> option lang) (th : theap).
  Section Body.
    Context (n : nat) (lg : option lang) (tinj : heap * option (list loc) -> loc -> tact (heap * option (list loc) * bytes)).
    Context (inj : heap * option (list loc) -> loc -> outcome (heap * option (list loc) * bytes)) (Hinj : forall st t, reads th (tinj st t) (inj st t)).
    Lemma reads_names t names : reads th (t_names n t names) (try_names th n t names).
    Proof. induction names; cbn; [done|]. rd; [apply reads_get|done]. Qed.
    Lemma reads_run st t : reads th (t_run_on tinj st t) (run_on inj st t).
    Proof. unfold t_run_on, run_on. rd. apply Hinj. Qed.
    Lemma reads_run_opt st t : reads th (t_run_opt tinj st t) (run_opt inj st t).
    Proof. destruct t; [apply reads_run|done]. Qed.
    Lemma reads_loop t subid subt cl : forall k i st, reads th (t_loop n tinj k i st t subid subt cl) (do_loop th n inj k i st t subid subt cl).
    Proof. induction k as [|k IH]; intros i st; cbn [t_loop do_loop]; [done|]. rd; try apply reads_names; try apply Hinj; apply IH. Qed.
    Lemma reads_param st t p : reads th (t_param F ord n lg tinj st t p) (do_param F ord th n lg inj st t p).
    Proof.
      unfold t_param, t_reference, t_range, t_condition, do_param, do_reference, do_range, do_condition.
      rd; try apply reads_names; try apply Hinj; try apply reads_run; try apply reads_run_opt; try apply reads_get; apply reads_loop.
    Qed.
    Lemma reads_params t ps : forall st, reads th (t_params F ord n lg tinj st t ps) (do_params F ord th n lg inj st t ps).
    Proof. induction ps as [|p ps IH]; intros st; cbn; [done|]. rd; [apply reads_param|apply IH]. Qed.
  End Body.
  Lemma reads_injector lg n : forall st t, reads th (t_injector F ord n lg st t) (injector F ord th n lg st t).
  Proof.
    induction n as [|n IH]; intros st t; cbn [t_injector injector]; [done|]. unfold reads, field. cbn. destruct (th !! t) as [T|] eqn:HT; [|done]. cbn.
    destruct (t_root T) as [ps|] eqn:Er; [|done]. cbn. rewrite HT. cbn. rewrite Er.
    apply (reads_bind th _ _ (fun x : heap * option (list loc) * list bytes => let '(st1, outs) := x in TRet (st1, concat outs))
      (fun x => let '(st1, outs) := x in Ok (st1, concat outs))); [by apply reads_params|]. by intros [st1 outs].
  Qed.
  Lemma alone_execute n h t data : talone (t_execute F ord langs n h t data) th = ('(h1, out) <-! execute F ord langs th n h t data; Ok (th, (h1, out))).
  Proof.
    assert (H : reads th (t_execute F ord langs n h t data) (execute F ord langs th n h t data)) by (unfold t_execute, execute; rd; apply reads_injector).
    rewrite H. by destruct (execute F ord langs th n h t data) as [[h1 out]| |].
  Qed.
End Reads.

(** ** Clone *)
Section Alone.
  Context (o : gmap bytes loc -> list (bytes * loc)).
  Notation tord := (fun _ : theap => o).
  Lemma clone_keeps n : forall th t th' c, tclone tord n th t = Ok (th', c) -> is_Some (th !! t) /\ (forall x, is_Some (th !! x) -> is_Some (th' !! x)) /\ is_Some (th' !! c).
  Proof.
    induction n as [|n IH]; intros th t th' c; [done|]. cbn [tclone]. destruct (th !! t) as [T|]; [|done]. intros H. split; [by eexists|].
    cbn [talloc fst snd] in H. set (c0 := fresh (dom th)) in *. set (th1 := <[c0 := _]> th) in *.
    assert (H1 : forall x, is_Some (th !! x) -> is_Some (th1 !! x)) by (intros x Hx; unfold th1; by apply lookup_insert_is_Some'; right).
    assert (Hc : is_Some (th1 !! c0)) by (unfold th1; rewrite lookup_insert; by eexists).
    destruct (t_subs T) as [m|]; [|injection H as <- <-; split; [intros x Hx; apply lookup_alter_is_Some; auto|by apply lookup_alter_is_Some]].
    assert (Hs : forall l th1 m' th2 m2, clone_subs (tclone tord n) l th1 c0 m' = Ok (th2, m2) -> forall x, is_Some (th1 !! x) -> is_Some (th2 !! x)).
    { clear -IH. induction l as [|[k x] l IHl]; intros th1 m' th2 m2; cbn [clone_subs]; [intros [= <- <-]; done|].
      destruct (tclone tord n th1 x) as [[thx x']| |] eqn:Ex; cbn [obind]; [|done..]. intros H y Hy. eapply IHl; [exact H|]. apply lookup_alter_is_Some.
      destruct (IH _ _ _ _ Ex) as (_ & Hk & _). by apply Hk. }
    destruct (clone_subs _ _ _ _ _) as [[th2 m2]| |] eqn:Es; cbn [obind] in H; [|done..]. injection H as <- <-.
    split; [intros x Hx; apply lookup_alter_is_Some; eapply Hs; eauto|]. apply lookup_alter_is_Some. eapply Hs; eauto.
  Qed.
  Lemma alone_clone n : forall t th, talone (t_clone tord n t) th = tclone tord n th t.
  Proof.
    induction n as [|n IH]; intros t th; [done|]. cbn [t_clone tclone]. rewrite talone_bind. cbn [talone field]. destruct (th !! t) as [T|] eqn:HT; [|done].
    cbn [talone obind]. rewrite talone_bind. cbn [talone make talloc fst snd obind]. set (c := fresh (dom th)). set (th0 := <[c := Tmpl (t_name T) None None None]> th).
    set (th1 := <[c := Tmpl (t_name T) (t_root T) None None]> th).
    assert (Hct : c <> t) by (intros E; apply (is_fresh (dom th)); fold c; rewrite E; apply elem_of_dom; by exists T).
    assert (H0 : th0 !! t = Some T) by (unfold th0; by rewrite lookup_insert_ne).
    assert (H1 : th1 !! t = Some T) by (unfold th1; by rewrite lookup_insert_ne).
    rewrite talone_bind. cbn [talone field]. rewrite H0. cbn [talone obind]. rewrite talone_bind.
    assert (E1 : talone (match t_root T with None => TRet tt | Some _ => tbind (field t t_root) (fun r2 => match r2 with Some ps => assign c (with_root (Some ps)) | None => TFail end) end) th0 =
      Ok (th1, tt)).
    { destruct (t_root T) as [ps|] eqn:Er; [|done]. rewrite talone_bind. cbn [talone field]. rewrite H0. cbn [talone obind]. rewrite Er. cbn [talone assign].
      assert (th0 !! c = Some (Tmpl (t_name T) None None None)) as -> by apply lookup_insert. cbn [talone]. f_equal. f_equal. unfold th0, th1. by rewrite alter_insert. }
    rewrite E1. clear E1. cbn [obind]. rewrite talone_bind. cbn [talone field]. rewrite H1. cbn [talone obind]. rewrite talone_bind.
    assert (Hend : forall th2 f, is_Some (th2 !! t) -> is_Some (th2 !! c) -> f = match th2 !! t with Some X => t_father X | None => None end ->
      talone (tbind (field t t_father) (fun f => tbind (assign c (with_father f)) (fun _ => TRet c))) th2 = Ok (alter (with_father f) c th2, c)).
    { intros th2 f [X HX] [C HC] ->. rewrite talone_bind. cbn [talone field]. rewrite HX. cbn [talone obind]. rewrite talone_bind. cbn [talone assign]. by rewrite HC. }
    destruct (t_subs T) as [m|] eqn:Em; [|cbn [talone obind]; rewrite (Hend th1 (t_father T)); [done|by rewrite H1|unfold th1; by rewrite lookup_insert|by rewrite H1]].
    rewrite talone_bind. unfold t_entries. cbn [talone]. rewrite H1. cbn [talone obind].
    assert (Hs : forall l th1 m', talone (t_clone_subs (t_clone tord n) l c m') th1 = clone_subs (tclone tord n) l th1 c m').
    { clear -IH. induction l as [|[k x] l IHl]; intros th1 m'; [done|]. cbn [t_clone_subs clone_subs]. rewrite talone_bind, IH.
      destruct (tclone tord n th1 x) as [[thx x']| |] eqn:Ex; cbn [obind]; [|done..]. destruct (clone_keeps _ _ _ _ _ Ex) as (Hx & Hk & _).
      destruct (Hk x Hx) as [X HX]. rewrite talone_bind. cbn [talone assign]. rewrite HX. cbn [talone obind]. apply IHl. }
    rewrite talone_bind, Hs.
    assert (Hkeep : forall l th1 m' th2 m2, clone_subs (tclone tord n) l th1 c m' = Ok (th2, m2) -> forall x, is_Some (th1 !! x) -> is_Some (th2 !! x)).
    { clear -IH. induction l as [|[k x] l IHl]; intros th1 m' th2 m2; cbn [clone_subs]; [intros [= <- <-]; done|].
      destruct (tclone tord n th1 x) as [[thx x']| |] eqn:Ex; cbn [obind]; [|done..]. intros H y Hy. eapply IHl; [exact H|]. apply lookup_alter_is_Some.
      destruct (clone_keeps _ _ _ _ _ Ex) as (_ & Hk & _). by apply Hk. }
    rewrite Em. destruct (clone_subs (tclone tord n) (o m) th1 c ∅) as [[th2 m2]| |] eqn:Es; cbn [obind]; [|done..].
    assert (Ht2 : is_Some (th2 !! t)) by (eapply Hkeep; [exact Es|by rewrite H1]).
    assert (Hc2 : is_Some (th2 !! c)) by (eapply Hkeep; [exact Es|unfold th1; by rewrite lookup_insert]).
    cbn [talone assign]. destruct Hc2 as [C HC]. rewrite HC. cbn [talone obind].
    rewrite (Hend _ (match th2 !! t with Some X => t_father X | None => None end)).
    - f_equal. f_equal. rewrite <- alter_compose. done.
    - by apply lookup_alter_is_Some.
    - rewrite lookup_alter, HC. by eexists.
    - by rewrite lookup_alter_ne.
  Qed.
End Alone.

(** ** Ends *)
Definition tfewer {A} (qs ps : list (tact A)) : Prop := exists i w k h, ps !! i = Some (TAct w k) /\ qs = <[i := k h]> ps.
Lemma tfewer_same {A} (p : tact A) : (forall w k, p <> TAct w k) -> forall ps, Acc tfewer ps -> Acc tfewer (p :: ps).
Proof.
  intros Hp ps H. induction H as [ps _ IHs]. constructor. intros qs (i & w & k & h & Hi & ->). destruct i as [|i].
  - cbn in Hi. injection Hi as ->. by destruct (Hp w k).
  - cbn in Hi. cbn. apply IHs. by exists i, w, k, h.
Qed.
Lemma tfewer_cons {A} (p : tact A) : forall ps, Acc tfewer ps -> Acc tfewer (p :: ps).
Proof.
  induction p as [a| | |w k IHk]; [by apply tfewer_same..|]. intros ps H. induction H as [ps Hacc IHs]. constructor. intros qs (i & w' & k' & h & Hi & ->).
  destruct i as [|i].
  - cbn in Hi. injection Hi as <- <-. cbn. apply IHk. by constructor.
  - cbn in Hi. cbn. apply IHs. by exists i, w', k', h.
Qed.
Lemma tfewer_acc {A} (ps : list (tact A)) : Acc tfewer ps.
Proof.
  induction ps as [|p ps IH]; [|by apply tfewer_cons]. constructor. intros qs (i & w & k & h & Hi & _). by rewrite lookup_nil in Hi.
Qed.
Lemma copy_stops {A} (th : theap) (ps : list (tact A)) : Acc (flip tstep) (th, ps) /\ ((forall s, ~ tstep (th, ps) s) -> Forall (fun p => exists o, p = tlift o) ps).
Proof.
  split.
  - revert th. induction (tfewer_acc ps) as [ps _ IH]. intros h. constructor. intros s Hs. unfold flip in Hs. remember (h, ps) as s0 eqn:E0.
    destruct Hs as [h1 ps1 i w k Hi]. injection E0 as -> ->. apply IH. by exists i, w, k, h.
  - intros Hs. apply Forall_lookup. intros i p Hp. destruct p as [a| | |w k]; [by exists (Ok a)|by exists Panic|by exists NoFuel|].
    destruct (Hs (w th, <[i := k th]> ps)). by constructor.
Qed.
