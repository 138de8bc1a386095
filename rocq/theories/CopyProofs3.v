(** * All goroutines together (C117). *)
From Verif Require Import GoBase GoStrings GoStringsProofs DatasetModel LangModel DatasetSpec TemplateModel TemplateSpec TemplateProofs5 RenderSpec RenderProofs RenderProofs9
  CopyModel CopySpec CopyProofs CopyProofs2.

(** ** Execute only reads *)
Fixpoint reads_only {A} (p : tact A) : Prop := match p with TAct w k => (forall th, w th = th) /\ forall th, reads_only (k th) | _ => True end.
Lemma ro_bind {A C} (p : tact A) (f : A -> tact C) : reads_only p -> (forall a, reads_only (f a)) -> reads_only (tbind p f).
Proof. intros Hp Hf. induction p as [a| | |w k IH]; [apply Hf|done|done|]. destruct Hp as [H1 H2]. split; [done|]. intros th. apply IH, H2. Qed.
Lemma ro_lift {A} (o : outcome A) : reads_only (tlift o).
Proof. by destruct o. Qed.
Lemma ro_field {A} t (f : tmpl -> A) : reads_only (field t f).
Proof. split; [done|]. intros th. by destruct (th !! t). Qed.
Ltac ro_step := match goal with
  | |- reads_only (tbind _ _) => apply ro_bind; [|intros ?]
  | |- reads_only (tlift _) => apply ro_lift
  | |- reads_only (field _ _) => apply ro_field
  | |- reads_only (TRet _) => exact I
  | |- reads_only TFail => exact I
  | |- reads_only TOut => exact I
  | |- reads_only (match ?x with _ => _ end) => destruct x
  | |- reads_only (let _ := _ in _) => cbv zeta
  end.
Ltac ro := repeat ro_step.
Lemma ro_get n name : forall t, reads_only (t_get n t name).
Proof. induction n as [|n IH]; intros t; cbn [t_get]; [done|]. unfold t_up. ro; apply IH. Qed.
Section Reads.
  Context (F : golib) (ord : heap -> gmap bytes value -> list (bytes * value)) (langs : nat -> option lang).
  Section Body.
    Context (n : nat) (lg : option lang) (inj : heap * option (list loc) -> loc -> tact (heap * option (list loc) * bytes)) (Hinj : forall st t, reads_only (inj st t)).
    Lemma ro_names t names : reads_only (t_names n t names).
    Proof. induction names; cbn; [done|]. ro; [apply ro_get|done]. Qed.
    Lemma ro_run st t : reads_only (t_run_on inj st t).
    Proof. unfold t_run_on. ro. apply Hinj. Qed.
    Lemma ro_run_opt st t : reads_only (t_run_opt inj st t).
    Proof. destruct t; [apply ro_run|done]. Qed.
    Lemma ro_loop t subid subt cl : forall k i st, reads_only (t_loop n inj k i st t subid subt cl).
    Proof. induction k as [|k IH]; intros i st; cbn [t_loop]; [done|]. ro; try apply ro_names; try apply Hinj; apply IH. Qed.
    Lemma ro_param st t p : reads_only (t_param F ord n lg inj st t p).
    Proof.
      unfold t_param, t_reference, t_range, t_condition. ro; try apply ro_names; try apply Hinj; try apply ro_run; try apply ro_run_opt; try apply ro_get; apply ro_loop.
    Qed.
    Lemma ro_params t ps : forall st, reads_only (t_params F ord n lg inj st t ps).
    Proof. induction ps as [|p ps IH]; intros st; cbn; [done|]. ro; [apply ro_param|apply IH]. Qed.
  End Body.
  Lemma ro_injector lg n : forall st t, reads_only (t_injector F ord n lg st t).
  Proof. induction n as [|n IH]; intros st t; cbn [t_injector]; [done|]. ro. by apply ro_params. Qed.
  Lemma ro_execute n h t data : reads_only (t_execute F ord langs n h t data).
  Proof. unfold t_execute. ro; apply ro_injector. Qed.
End Reads.
Lemma safe_reads th {A} (p : tact A) w : reads_only p -> safe th True True p ∅ w (fun _ K' _ => K' = ∅).
Proof.
  revert w. induction p as [a| | |f k IH]; intros w Hp; [done..|]. destruct Hp as [H1 H2]. cbn. intros w1 L1 I1 O1. exists w1, ∅. split; [by rewrite H1|].
  split; [by apply moves_refl|]. apply IH, H2.
Qed.

(** ** Scripts *)
Section Scripts.
  Context (F : golib) (ord : heap -> gmap bytes value -> list (bytes * value)) (langs : nat -> option lang).
  Context (th : theap) (Hclosed : closed th) (Hcons : consistent th).
  Lemma vers_later w w' l l0 : later w w' -> Forall2 (ver w) l l0 -> Forall2 (ver w') l l0.
  Proof. intros L H. eapply Forall2_impl; [exact H|]. intros y x. by apply ver_later. Qed.
  Lemma script_copies n cs : (forall i tord, Copy i tord ∈ cs -> any_order tord) -> forall w held held0 h, Forall2 (ver w) held held0 ->
    (forall t, t ∈ held0 -> fits th n t) ->
    safe th True True (t_script F ord langs n held h cs) ∅ w (fun r K' w' => K' = ∅ /\ Forall2 (ver w') r.1 (models held0 cs)).
  Proof.
    induction cs as [|[i tord|i data] cs IH]; intros Ho w held held0 h Hh Hf; cbn [t_script models]; [done| |].
    - destruct (held !! i) as [t|] eqn:Et; [|done]. destruct (Forall2_lookup_l _ _ _ _ _ Hh Et) as (t0 & Et0 & Hv). rewrite Et0.
      assert (Hin : t0 ∈ held0) by (by eapply elem_of_list_lookup_2). apply safe_bind.
      eapply safe_weaken; [done|done| |eapply (t_clone_ok th Hcons tord (Ho i tord ltac:(by left)) True True n t t0 ∅ w Hv (Hf t0 Hin))].
      intros c K' w' L' (-> & Hc). apply IH.
      + intros j tord' Hj. eapply Ho. right. exact Hj.
      + apply Forall2_app; [by eapply vers_later|]. by constructor.
      + intros t1 [Ht1|Ht1]%elem_of_app; [by apply Hf|]. apply elem_of_list_singleton in Ht1 as ->. by apply Hf.
    - assert (Ho' : forall j tord', Copy j tord' ∈ cs -> any_order tord') by (intros j tord' Hj; apply (Ho j tord'); by right).
      destruct (held !! i) as [t|] eqn:Et; [|done]. apply safe_bind. eapply safe_weaken; [done|done| |exact (safe_reads th _ w (ro_execute F ord langs n h t data))].
      intros [h1 out] K' w' L' ->. apply safe_bind. eapply safe_weaken; [done|done| |apply (IH Ho' w' held held0 h1); [by eapply vers_later|done]].
      intros [held1 outs] K1 w1 L1 (-> & Hr). cbn. split; [done|exact Hr].
  Qed.
  Lemma script_texts (S : loc -> Prop) n cs : compiled th ->
    (forall x X l k n y, S x -> th !! x = Some X -> t_root X = Some (map stored l) -> k ∈ l -> may_call k n -> visible th x n (Some y) -> subs_of X !! n = Some y /\ S y) ->
    (forall i tord, Copy i tord ∈ cs -> any_order tord) -> forall w held held0 h, Forall2 (ver w) held held0 -> (forall t, t ∈ held0 -> fits th n t /\ S t) ->
    tsim th (t_script F ord langs n held h cs) (in_turn F ord langs th n held0 h cs) w (fun w' a b => a.2 = b).
  Proof.
    intros Hcomp HS. induction cs as [|[i tord|i data] cs IH]; intros Ho w held held0 h Hh Hf; cbn [t_script in_turn]; [by apply tsim_ret| |].
    - destruct (held !! i) as [t|] eqn:Et.
      + destruct (Forall2_lookup_l _ _ _ _ _ Hh Et) as (t0 & Et0 & Hv). rewrite Et0. assert (Hin : t0 ∈ held0) by (by eapply elem_of_list_lookup_2). intros Hn. apply safe_bind.
        eapply (safe_weaken th False False); [done|done| |eapply (t_clone_ok th Hcons tord (Ho i tord ltac:(by left)) False False n t t0 ∅ w Hv (proj1 (Hf t0 Hin)))].
        intros c K' w' L' (-> & Hc). apply IH; [| | |done].
        * intros j tord' Hj. eapply Ho. right. exact Hj.
        * apply Forall2_app; [by eapply vers_later|]. by constructor.
        * intros t1 [Ht1|Ht1]%elem_of_app; [by apply Hf|]. apply elem_of_list_singleton in Ht1 as ->. by apply Hf.
      + assert (held0 !! i = None) as ->; [|apply tsim_fail]. apply lookup_ge_None. apply lookup_ge_None in Et. by rewrite <- (Forall2_length _ _ _ Hh).
    - assert (Ho' : forall j tord', Copy j tord' ∈ cs -> any_order tord') by (intros j tord' Hj; apply (Ho j tord'); by right).
      destruct (held !! i) as [t|] eqn:Et.
      + destruct (Forall2_lookup_l _ _ _ _ _ Hh Et) as (t0 & Et0 & Hv). rewrite Et0. assert (Hin : t0 ∈ held0) by (by eapply elem_of_list_lookup_2).
        eapply tsim_bind; [eapply (execute_sim th S); [done|done|exact HS|exact Hv|by apply Hf]|]. intros w1 [h1 out] ? L1 <-.
        eapply tsim_bind; [apply (IH Ho' w1 held held0 h1); [by eapply vers_later|done]|].
        intros w2 [held1 outs] b L2 Hb. cbn in Hb. subst b. by apply tsim_ret.
      + assert (held0 !! i = None) as ->; [|apply tsim_fail]. apply lookup_ge_None. apply lookup_ge_None in Et. by rewrite <- (Forall2_length _ _ _ Hh).
  Qed.
  Definition outcome_ok (j : job) (a : answer) (w : world) : Prop :=
    match j, a with
    | Script held h cs, Did held' texts => Forall2 (ver w) held' (models held cs)
    | Lookup t name, Saw r => heard th name t r w
    | _, _ => False
    end.
  Lemma outcome_later j a w w' : later w w' -> outcome_ok j a w -> outcome_ok j a w'.
  Proof.
    intros L. destruct j as [held h cs|t name], a as [held' texts|r]; try done; cbn; [by apply vers_later|]. destruct r as [z|]; [|done].
    intros (x0 & H1 & H2). exists x0. split; [done|]. by eapply ver_later.
  Qed.
  Lemma fits_dom n t : fits th n t -> is_Some (th !! t).
  Proof. destruct n; [done|]. intros (T & HT & _). by exists T. Qed.
  Lemma held_vers n held : (forall t, t ∈ held -> fits th n t) -> Forall2 (ver (world0 th)) held held.
  Proof.
    intros H. induction held as [|t held IH]; [done|]. constructor; [|apply IH; intros; apply H; by right]. apply (inv0 th Hclosed). eapply fits_dom, H. by left.
  Qed.
  Definition gives_up (n : nat) (j : job) : Prop := match j with Script _ _ _ => True | Lookup t _ => ~ rises th n t end.
  Definition panics (j : job) : Prop := match j with Script _ _ _ => True | Lookup _ _ => False end.
  Lemma job_ok n j : allowed th n j -> safe th (panics j) (gives_up n j) (t_job F ord langs n j) ∅ (world0 th) (fun a K' w' => K' = ∅ /\ outcome_ok j a w').
  Proof.
    intros Ha. destruct j as [held h cs|t name]; cbn in Ha |- *; apply safe_bind; unfold panics, gives_up.
    - destruct Ha as [Hf Ho]. eapply safe_weaken; [done|done| |eapply script_copies; [exact Ho|by eapply held_vers|exact Hf]]. intros [held1 outs] K' w' L' (-> & H). done.
    - eapply safe_weaken; [done|done| |apply (t_get_hears th False (~ rises th n t) n name t t (world0 th)); [by apply (inv0 th Hclosed)|done]]. intros r K' w' L' (-> & H). done.
  Qed.
  Lemma job_texts n held h cs : compiled th -> allowed th n (Script held h cs) -> (forall t, t ∈ held -> self_contained th t) ->
    tsim th (t_job F ord langs n (Script held h cs)) (in_turn F ord langs th n held h cs) (world0 th) (fun _ a b => exists held', a = Did held' b).
  Proof.
    intros Hcomp [Hf Ho] Hs. cbn.
    set (S := fun x => exists S0 : loc -> Prop, S0 x /\ forall x X l k n y, S0 x -> th !! x = Some X -> t_root X = Some (map stored l) -> k ∈ l -> may_call k n ->
      visible th x n (Some y) -> subs_of X !! n = Some y /\ S0 y).
    assert (HT : tsim th (t_script F ord langs n held h cs) (in_turn F ord langs th n held h cs) (world0 th) (fun _ a b => a.2 = b)).
    { apply (script_texts S); [done| |done|by eapply held_vers|].
      - intros x X l k nm y (S0 & Hx & HS0) HX Hr Hk Hm Hv. destruct (HS0 x X l k nm y Hx HX Hr Hk Hm Hv) as [H1 H2]. split; [done|]. by exists S0.
      - intros t Ht. split; [by apply Hf|]. apply (Hs t Ht). }
    intros Hn. apply safe_bind. eapply (safe_weaken th (in_turn F ord langs th n held h cs = Panic) False); [done|done| |apply HT, Hn]. intros [held1 outs] K' w' L' (-> & b & Hb & E). cbn in E. subst outs. split; [done|]. exists b. split; [done|].
    by exists held1.
  Qed.
End Scripts.

(** ** All of them *)
Section All.
  Context (th : theap) {A : Type} (Ef Eo : nat -> Prop) (Phi : nat -> A -> world -> Prop).
  Context (HPhi : forall i a w w', later w w' -> Phi i a w -> Phi i a w').
  Definition post (i : nat) (a : A) (K' : gmap loc tmpl) (w' : world) : Prop := K' = ∅ /\ Phi i a w'.
  Definition glob (w : world) (Ks : nat -> gmap loc tmpl) (ps : list (tact A)) : Prop :=
    inv th w /\ later (world0 th) w /\ (forall i, owns (Ks i) w) /\
    (forall i p, ps !! i = Some p -> safe th (Ef i) (Eo i) p (Ks i) w (post i)) /\
    (forall i j, i <> j -> dom (Ks i) ## dom (Ks j)) /\
    (forall y, y ∈ w_P w -> exists i, i < length ps /\ y ∈ dom (Ks i)).
  Lemma glob_step w Ks ps th' ps' : glob w Ks ps -> tstep (w_th w, ps) (th', ps') -> exists w' Ks', w_th w' = th' /\ glob w' Ks' ps'.
  Proof.
    intros (HI & HL & HO & HS & HD & HP) Hs. remember (w_th w, ps) as s eqn:Es. remember (th', ps') as s' eqn:Es'. destruct Hs as [h qs i f k Hi].
    injection Es as -> ->. injection Es' as <- <-. pose proof (HS i _ Hi) as Hsafe. cbn in Hsafe.
    destruct (Hsafe w (later_refl w) HI (HO i)) as (w2 & K2 & Eth & (L2 & I2 & O2 & EP & D2 & U2) & S2).
    exists w2, (fun j => if decide (j = i) then K2 else Ks j). split; [done|].
    assert (Hother : forall j y, j <> i -> y ∈ dom (Ks j) -> y ∈ w_P w /\ y ∉ dom (Ks i)).
    { intros j y Hne Hy. split; [|intros Hy'; by apply (HD j i Hne y)]. apply elem_of_dom in Hy as [Y HY]. by destruct (HO j y Y HY). }
    split; [done|]. split; [by eapply later_trans|]. split; [|split; [|split]].
    - intros j. destruct (decide (j = i)) as [->|Hne]; [done|]. intros y Y HY. destruct (HO j y Y HY) as [H1 H2].
      destruct (Hother j y Hne) as [H3 H4]; [apply elem_of_dom; by exists Y|]. rewrite U2 by done. split; [done|]. rewrite EP. set_solver.
    - intros j p Hj. destruct (decide (j = i)) as [->|Hne].
      + rewrite list_lookup_insert in Hj by (by eapply lookup_lt_Some). injection Hj as <-. exact S2.
      + rewrite list_lookup_insert_ne in Hj by done. eapply safe_later; [|exact L2|by apply HS]. intros a K' u u' Lu [-> H]. split; [done|]. by eapply HPhi.
    - intros a b Hab. destruct (decide (a = i)) as [->|Ha], (decide (b = i)) as [->|Hb]; [done| | |by apply HD].
      + intros y Hy1 Hy2. destruct (Hother b y Hb Hy2). apply (D2 y); [done|set_solver].
      + intros y Hy1 Hy2. destruct (Hother a y Ha Hy1). apply (D2 y); [done|set_solver].
    - intros y Hy. rewrite EP in Hy. rewrite insert_length. apply elem_of_union in Hy as [Hy|Hy].
      + apply elem_of_difference in Hy as [Hy Hn]. destruct (HP y Hy) as (j & Hj & Hyj). exists j. split; [done|]. rewrite decide_False; [done|]. intros ->. done.
      + exists i. split; [by eapply lookup_lt_Some|]. by rewrite decide_True.
  Qed.
  Lemma glob_steps w Ks ps th' ps' : glob w Ks ps -> rtc tstep (w_th w, ps) (th', ps') -> exists w' Ks', w_th w' = th' /\ glob w' Ks' ps'.
  Proof.
    intros HG H. remember (w_th w, ps) as s eqn:Es. remember (th', ps') as s' eqn:Es'. revert w Ks ps th' ps' HG Es Es'.
    induction H as [s|s [th1 ps1] s' Hs _ IH]; intros w Ks ps th' ps' HG Es Es'; [subst s; injection Es' as <- <-; by exists w, Ks|]. subst s.
    destruct (glob_step w Ks ps th1 ps1 HG Hs) as (w1 & Ks1 & E1 & HG1). eapply (IH w1 Ks1 ps1 th' ps' HG1); [by rewrite E1|done].
  Qed.
  Lemma glob_start ps : closed th -> (forall i p, ps !! i = Some p -> safe th (Ef i) (Eo i) p ∅ (world0 th) (post i)) -> glob (world0 th) (fun _ => ∅) ps.
  Proof.
    clear HPhi. intros Hc H. split; [by apply inv0|]. split; [apply later_refl|]. split; [by intros i c C HC|]. split; [done|]. split; [intros; set_solver|]. intros y Hy. cbn in Hy. set_solver.
  Qed.
  (** Where a goroutine may stop. *)
  Lemma glob_end w Ks ps i o : glob w Ks ps -> ps !! i = Some (tlift o) -> Ks i = ∅ /\ match o with Ok a => Phi i a w | Panic => Ef i | NoFuel => Eo i end.
  Proof.
    clear HPhi. intros (HI & HL & HO & HS & HD & HP) Hi. pose proof (HS i _ Hi) as H. destruct o as [a| |]; cbn in H; [|naive_solver..]. done.
  Qed.
  Lemma glob_over w Ks ps : glob w Ks ps -> Forall (fun p => exists o, p = tlift o) ps -> mirrors th (w_th w) (w_rho w) [] /\ w_P w = ∅.
  Proof.
    clear HPhi. intros HG Hend. pose proof HG as (HI & HL & HO & HS & HD & HP). assert (HP0 : w_P w = ∅).
    { apply set_eq. intros y. split; [|set_solver]. intros Hy. destruct (HP y Hy) as (i & Hi & Hyi). destruct (lookup_lt_is_Some_2 ps i Hi) as [p Hp].
      rewrite Forall_forall in Hend. destruct (Hend p) as [o ->]; [by eapply elem_of_list_lookup_2|]. destruct (glob_end w Ks ps i o HG Hp) as [E _]. by rewrite E in Hyi. }
    split; [|done]. pose proof HI as (I1 & I2 & I3). split; [|split; [|split; [|constructor]]].
    - intros x Hx. apply (I1 x Hx).
    - intros x X HX. destruct (I2 x X HX) as (O & HO' & _ & _ & Hrest). destruct (Hrest ltac:(rewrite HP0; set_solver)) as (R1 & R2 & R3). exists O. split; [done|]. split; [done|]. intros _.
      split; [|split; [|split]].
      + intros k. specialize (R2 k). destruct (subs_of X !! k) as [y|], (subs_of O !! k) as [y0|]; try done. cbn. f_equal. apply R2.
      + destruct (t_father X) as [y|], (t_father O) as [y0|]; try done. cbn. f_equal. apply R3.
      + intros k y Hy. specialize (R2 k). rewrite Hy in R2. destruct (subs_of O !! k); [|done]. apply R2.
      + intros y Hy. rewrite Hy in R3. destruct (t_father O); [|done]. apply R3.
    - intros x O HO'. destruct (proj1 (proj2 HL) x O HO') as (_ & X & HX & _ & HX2); [cbn; set_solver|]. by exists X.
  Qed.
End All.
