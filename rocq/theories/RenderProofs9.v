(** * Clones of templates. *)
From Verif Require Import GoBase GoStrings GoStringsProofs Regex DatasetModel LangModel DatasetSpec 
  TemplateModel TemplateSpec TemplateProofs2 TemplateProofs3 TemplateProofs4 TemplateProofs5 TemplateProofs6 RenderSpec RenderProofs2 RenderProofs4 RenderProofs6.
Local Open Scope Z_scope.

Section Clone.
  Context (tord : theap -> gmap bytes loc -> list (bytes * loc)) (th : theap).
  Context (Hord : any_order tord) (Hclosed : closed th) (Hcons : consistent th).
  (** [rho] leads from a template to the one it was cloned from; the templates [P] are being built. *)
  Definition mirrors (th' : theap) (rho : loc -> loc) (P : list loc) : Prop :=
    (forall x, is_Some (th !! x) -> rho x = x) /\
    (forall x X, th' !! x = Some X -> exists O, th !! rho x = Some O /\ t_root X = t_root O /\
       (x ∉ P -> (forall n, rho <$> (subs_of X !! n) = subs_of O !! n) /\ rho <$> t_father X = t_father O /\
          (forall n y, subs_of X !! n = Some y -> is_Some (th' !! y)) /\ (forall y, t_father X = Some y -> is_Some (th' !! y)))) /\
    (forall x O, th !! x = Some O -> exists X, th' !! x = Some X /\ t_subs X = t_subs O) /\
    Forall (fun p => th !! p = None) P.
  Lemma mirrors_start : mirrors th id [].
  Proof.
    split; [done|]. split; [|split; [|constructor]].
    - intros x X HX. exists X. split; [done|]. split; [done|]. intros _. split; [intros n; by destruct (subs_of X !! n)|].
      split; [by destruct (t_father X)|]. split; intros; [by eapply (proj1 Hclosed)|by eapply (proj2 Hclosed)].
    - intros x O HO. by exists O.
  Qed.
  Definition extends (th1 th2 : theap) (r1 r2 : loc -> loc) : Prop :=
    (forall x, is_Some (th1 !! x) -> is_Some (th2 !! x) /\ r2 x = r1 x).
  Lemma extends_trans th1 th2 th3 r1 r2 r3 : extends th1 th2 r1 r2 -> extends th2 th3 r2 r3 -> extends th1 th3 r1 r3.
  Proof. intros H1 H2 x Hx. destruct (H1 x Hx) as [Hx2 E1]. destruct (H2 x Hx2) as [Hx3 E2]. split; [done|]. congruence. Qed.
  Lemma rho_dom th' rho P x : mirrors th' rho P -> is_Some (th' !! x) -> is_Some (th !! rho x).
  Proof. intros (_ & H & _) [X HX]. destruct (H x X HX) as (O & HO & _). by exists O. Qed.
  Lemma fmap_rho_ext (r1 r2 : loc -> loc) (o : option loc) : (forall y, o = Some y -> r2 y = r1 y) -> r2 <$> o = r1 <$> o.
  Proof. destruct o as [y|]; [|done]. intros H. simpl. by rewrite (H y). Qed.

  (** A new template. *)
  Lemma mirrors_alloc th' rho P t T0 T : mirrors th' rho P -> th !! t = Some T -> t_root T0 = t_root T ->
    let c := fresh (dom th') in let rho' := fun x => if decide (x = c) then t else rho x in
    mirrors (<[c := T0]> th') rho' (c :: P) /\ extends th' (<[c := T0]> th') rho rho' /\ rho' c = t /\ th' !! c = None.
  Proof.
    intros (M1 & M2 & M3 & M4) HT Hr c rho'. assert (Hc : th' !! c = None) by (apply not_elem_of_dom, is_fresh).
    assert (Hct : th !! c = None).
    { destruct (th !! c) as [O|] eqn:E; [|done]. destruct (M3 c O E) as (X & HX & _). congruence. }
    assert (Hne : forall y, is_Some (th' !! y) -> y <> c) by (intros y [Y HY] ->; congruence).
    assert (Hrho : forall y, is_Some (th' !! y) -> rho' y = rho y) by (intros y Hy; unfold rho'; rewrite decide_False by (by apply Hne); done).
    assert (Hdom : forall y, is_Some (th' !! y) -> is_Some (<[c := T0]> th' !! y)) by (intros y Hy; rewrite lookup_insert_ne; [done|]; by apply not_eq_sym, Hne).
    split; [|split; [|split; [unfold rho'; by rewrite decide_True|done]]].
    - split; [|split; [|split]].
      + intros x Hx. destruct Hx as [O HO]. destruct (M3 x O HO) as (X & HX & _). rewrite Hrho by (by exists X). apply M1. by exists O.
      + intros x X. destruct (decide (x = c)) as [->|Hxc].
        * rewrite lookup_insert. intros [= <-]. exists T. unfold rho'. rewrite decide_True by done. split; [done|]. split; [done|].
          intros Hx. destruct Hx. apply elem_of_list_here.
        * rewrite lookup_insert_ne by done. intros HX. destruct (M2 x X HX) as (O & HO & HrO & Hrest). exists O.
          rewrite Hrho by (by exists X). split; [done|]. split; [done|]. intros Hx. apply not_elem_of_cons in Hx as [_ Hx].
          destruct (Hrest Hx) as (S1 & S2 & S3 & S4). split; [|split; [|split]].
          -- intros n. rewrite <- S1. apply fmap_rho_ext. intros y Hy. apply Hrho. by eapply S3.
          -- rewrite <- S2. apply fmap_rho_ext. intros y Hy. apply Hrho. by apply S4.
          -- intros n y Hy. apply Hdom. by eapply S3.
          -- intros y Hy. apply Hdom. by apply S4.
      + intros x O HO. destruct (M3 x O HO) as (X & HX & HS). exists X. split; [|done]. rewrite lookup_insert_ne; [done|]. intros <-. congruence.
      + by constructor.
    - intros x Hx. split; [by apply Hdom|by apply Hrho].
  Qed.
  (** The Father of an original becomes a clone of its holder. *)
  Lemma mirrors_father th' rho P x c t O : mirrors th' rho P -> th !! x = Some O -> t_father O = Some t -> is_Some (th' !! c) -> rho c = t ->
    mirrors (alter (fun X => Tmpl (t_name X) (t_root X) (t_subs X) (Some c)) x th') rho P.
  Proof.
    intros (M1 & M2 & M3 & M4) HO Hf Hc Hrc. split; [done|]. split; [|split; [|done]].
    - intros y Y. destruct (decide (y = x)) as [->|Hne].
      + rewrite lookup_alter. destruct (th' !! x) as [X|] eqn:EX; [|done]. intros [= <-]. destruct (M2 x X EX) as (O' & HO' & Hr & Hrest).
        rewrite (M1 x) in HO' by (by exists O). assert (O' = O) as -> by congruence. exists O. rewrite (M1 x) by (by exists O).
        split; [done|]. split; [done|]. intros Hx. destruct (Hrest Hx) as (S1 & S2 & S3 & S4). split; [done|]. split; [cbn; by rewrite Hrc, Hf|].
        split; [intros n y Hy; apply is_Some_alter; by eapply S3|]. intros y [= <-]. by apply is_Some_alter.
      + rewrite lookup_alter_ne by done. intros HY. destruct (M2 y Y HY) as (O' & HO' & Hr & Hrest). exists O'. split; [done|]. split; [done|].
        intros Hy. destruct (Hrest Hy) as (S1 & S2 & S3 & S4). split; [done|]. split; [done|].
        split; intros; apply is_Some_alter; [by eapply S3|by eapply S4].
    - intros y O' HO'. destruct (M3 y O' HO') as (Y & HY & HS). destruct (decide (y = x)) as [->|Hne].
      + rewrite lookup_alter, HY. eexists. split; [done|]. done.
      + rewrite lookup_alter_ne by done. by exists Y.
  Qed.
  (** A template is finished. *)
  Lemma mirrors_finish th' rho P c t O s fa : mirrors th' rho (c :: P) -> rho c = t -> th !! t = Some O -> th !! c = None ->
    (forall n, rho <$> (match s with Some m => m | None => ∅ end !! n) = subs_of O !! n) -> rho <$> fa = t_father O ->
    (forall n y, (match s with Some m => m | None => ∅ end : gmap bytes loc) !! n = Some y -> is_Some (th' !! y)) -> (forall y, fa = Some y -> is_Some (th' !! y)) ->
    mirrors (alter (fun X => Tmpl (t_name X) (t_root X) s fa) c th') rho P.
  Proof.
    intros (M1 & M2 & M3 & M4) Hrc HO Hco S1 S2 S3 S4. apply Forall_cons in M4 as [_ M4]. split; [done|]. split; [|split; [|done]].
    - intros y Y. destruct (decide (y = c)) as [->|Hne].
      + rewrite lookup_alter. destruct (th' !! c) as [X|] eqn:EX; [|done]. intros [= <-]. destruct (M2 c X EX) as (O' & HO' & Hr & _).
        rewrite Hrc, HO in HO'. injection HO' as <-. exists O. rewrite Hrc. split; [done|]. split; [done|]. intros _.
        split; [exact S1|]. split; [exact S2|]. split; [intros n y Hy; apply is_Some_alter; by eapply S3|]. intros y Hy. apply is_Some_alter. by apply S4.
      + rewrite lookup_alter_ne by done. intros HY. destruct (M2 y Y HY) as (O' & HO' & Hr & Hrest). exists O'. split; [done|]. split; [done|].
        intros Hy. destruct Hrest as (R1 & R2 & R3 & R4); [by apply not_elem_of_cons|]. split; [done|]. split; [done|].
        split; intros; apply is_Some_alter; [by eapply R3|by eapply R4].
    - intros y O' HO'. destruct (M3 y O' HO') as (Y & HY & HS). exists Y. rewrite lookup_alter_ne; [done|]. intros <-. congruence.
  Qed.
  Lemma extends_alter th1 th2 r1 r2 f x : extends th1 th2 r1 r2 -> extends th1 (alter f x th2) r1 r2.
  Proof. intros H y Hy. destruct (H y Hy). split; [by apply is_Some_alter|done]. Qed.

  Definition clones (cl : theap -> loc -> outcome (theap * loc)) : Prop :=
    forall th1 rho P t th2 c, mirrors th1 rho P -> is_Some (th !! t) -> cl th1 t = Ok (th2, c) ->
      exists rho', mirrors th2 rho' P /\ extends th1 th2 rho rho' /\ is_Some (th2 !! c) /\ rho' c = t /\ th1 !! c = None.
  Lemma clone_subs_spec cl t T : clones cl -> th !! t = Some T ->
    forall l th1 rho P c m' th2 m2, mirrors th1 rho P -> is_Some (th1 !! c) -> rho c = t ->
      (forall k x, (k, x) ∈ l -> subs_of T !! k = Some x) -> NoDup l.*1 ->
      (forall k, (k ∈ l.*1 -> m' !! k = None) /\ (k ∉ l.*1 -> rho <$> m' !! k = subs_of T !! k)) ->
      (forall k y, m' !! k = Some y -> is_Some (th1 !! y)) ->
      clone_subs cl l th1 c m' = Ok (th2, m2) ->
      exists rho', mirrors th2 rho' P /\ extends th1 th2 rho rho' /\ (forall k, rho' <$> m2 !! k = subs_of T !! k) /\
        (forall k y, m2 !! k = Some y -> is_Some (th2 !! y)).
  Proof.
    intros Hcl HT l. induction l as [|[k x] l IH]; intros th1 rho P c m' th2 m2 HM Hc Hrc Hl Hnd Hm Hmd H.
    - injection H as <- <-. exists rho. split; [done|]. split; [by intros y Hy|]. split; [|done]. intros k. apply Hm. by intros Hk%elem_of_nil.
    - cbn [clone_subs] in H. apply obind_ok in H as ([th1' x'] & Hx & H).
      assert (Hsub : subs_of T !! k = Some x) by (apply Hl, elem_of_list_here).
      destruct (Hcons t T k x HT Hsub) as (X & HX & Hfx).
      destruct (Hcl th1 rho P x th1' x' HM) as (rho1 & HM1 & He1 & Hx'd & Hrx & _); [by exists X|done|].
      destruct (He1 c Hc) as [Hc1 Erc].
      apply NoDup_cons in Hnd as [Hk Hnd].
      destruct (IH (alter (fun X => Tmpl (t_name X) (t_root X) (t_subs X) (Some c)) x th1') rho1 P c (<[k := x']> m') th2 m2) as (rho2 & HM2 & He2 & Hm2 & Hd2).
      + eapply (mirrors_father th1' rho1 P x c t X); [done|done|done|done|congruence].
      + by apply is_Some_alter.
      + congruence.
      + intros k0 x0 Hin. apply Hl. by apply elem_of_list_further.
      + done.
      + intros k0. destruct (decide (k0 = k)) as [->|Hne].
        * split; [done|]. intros _. rewrite lookup_insert. cbn. by rewrite Hrx.
        * rewrite lookup_insert_ne by done. destruct (Hm k0) as [Ha Hb]. split; [intros Hin; apply Ha; by apply elem_of_list_further|].
          intros Hni. rewrite <- Hb; [|intros [Hin|Hin]%elem_of_cons; done]. apply fmap_rho_ext. intros y Hy. apply He1. by eapply Hmd.
      + intros k0 y. destruct (decide (k0 = k)) as [->|Hne]; [rewrite lookup_insert; intros [= <-]; by apply is_Some_alter|].
        rewrite lookup_insert_ne by done. intros Hy. apply is_Some_alter. destruct (He1 y); [by eapply Hmd|done].
      + exact H.
      + exists rho2. split; [done|]. split; [|done]. eapply extends_trans; [|exact He2]. by apply extends_alter.
  Qed.
  Lemma any_order_fst m : NoDup (tord th m).*1.
  Proof. rewrite (Hord th m). apply NoDup_fst_map_to_list. Qed.
  Lemma tclone_clones n : clones (tclone tord n).
  Proof.
    induction n as [|n IH]; intros th1 rho P t th2 c HM [T HT] H; cbn [tclone] in H; [done|].
    pose proof HM as (M1 & M2 & M3 & M4). destruct (M3 t T HT) as (T1 & HT1 & HS1). rewrite HT1 in H.
    assert (Hroot : t_root T1 = t_root T).
    { destruct (M2 t T1 HT1) as (O & HO & HrO & _). rewrite (M1 t) in HO by (by exists T). congruence. }
    unfold talloc in H.
    destruct (mirrors_alloc th1 rho P t (Tmpl (t_name T1) (t_root T1) None None) T HM HT Hroot) as (HM0 & He0 & Hrc & Hc).
    set (c0 := fresh (dom th1)) in *. set (rho0 := fun x => if decide (x = c0) then t else rho x) in *.
    set (th0 := <[c0 := Tmpl (t_name T1) (t_root T1) None None]> th1) in *.
    assert (Hc0 : is_Some (th0 !! c0)) by (unfold th0; rewrite lookup_insert; by eexists).
    assert (Hct : th !! c0 = None) by (destruct (th !! c0) as [O|] eqn:E; [destruct (M3 c0 O E) as (X & HX & _); congruence|done]).
    assert (HtP : forall Q, Forall (fun p => th !! p = None) Q -> t ∉ Q).
    { intros Q HQ Hin. rewrite Forall_forall in HQ. specialize (HQ t Hin). simpl in HQ. congruence. }
    destruct (t_subs T1) as [m|] eqn:Hm.
    - apply obind_ok in H as ([th2' m2] & H & H'). injection H' as <- <-.
      assert (Em : subs_of T = m) by (unfold subs_of; by rewrite <- HS1).
      destruct (clone_subs_spec (tclone tord n) t T IH HT (tord th1 m) th0 rho0 (c0 :: P) c0 ∅ th2' m2) as (rho2 & HM2 & He2 & Hm2 & Hd2); try done.
      + intros k x Hin. rewrite Em. apply elem_of_map_to_list. by rewrite <- (Hord th1 m).
      + rewrite (Hord th1 m). apply NoDup_fst_map_to_list.
      + intros k. split; [done|]. intros Hk. rewrite lookup_empty. cbn. symmetry. rewrite Em. destruct (m !! k) as [x|] eqn:E; [|done].
        destruct Hk. rewrite (Hord th1 m). apply elem_of_list_fmap. exists (k, x). split; [done|]. by apply elem_of_map_to_list.
      + exists rho2. destruct (He2 c0 Hc0) as [Hc2 Er2]. destruct HM2 as (N1 & N2 & N3 & N4). destruct (N3 t T HT) as (X & HX & _).
        destruct (N2 t X HX) as (O & HO & _ & Hrest). rewrite (N1 t) in HO by (by exists T). assert (O = T) as -> by congruence.
        destruct Hrest as (_ & Hfa & _ & Hfd); [by apply HtP|]. rewrite HX.
        split; [|split; [|split; [|split]]].
        * apply (mirrors_finish th2' rho2 P c0 t T (Some m2) (t_father X)); [by repeat split|etransitivity; [exact Er2|exact Hrc]|done|done|done|done|done|done].
        * apply extends_alter. eapply extends_trans; [exact He0|exact He2].
        * by apply is_Some_alter.
        * etransitivity; [exact Er2|exact Hrc].
        * exact Hc.
    - injection H as <- <-. exists rho0.
      destruct (M2 t T1 HT1) as (O & HO & _ & Hrest). rewrite (M1 t) in HO by (by exists T). assert (O = T) as -> by congruence.
      destruct Hrest as (_ & Hfa & _ & Hfd); [by apply HtP|].
      split; [|split; [|split; [|split]]].
      * assert (Ealter : alter (fun X => Tmpl (t_name X) (t_root X) (t_subs X) (t_father T1)) c0 th0 = alter (fun X => Tmpl (t_name X) (t_root X) None (t_father T1)) c0 th0).
        { apply alter_ext. intros X HX. unfold th0 in HX. rewrite lookup_insert in HX. by injection HX as <-. }
        rewrite Ealter. apply (mirrors_finish th0 rho0 P c0 t T None (t_father T1)); try done.
        -- intros n0. rewrite lookup_empty. unfold subs_of. by rewrite <- HS1.
        -- rewrite <- Hfa. apply fmap_rho_ext. intros y Hy. apply He0. by apply Hfd.
        -- intros y Hy. apply He0. by apply Hfd.
      * by apply extends_alter.
      * by apply is_Some_alter.
      * exact Hrc.
      * exact Hc.
  Qed.
  Lemma mirror_lookups th' rho : mirrors th' rho [] -> forall k k' t t' name, (k <= k')%nat -> is_Some (th' !! t') -> rho t' = t ->
    orel (same_answer (fun x x' => is_Some (th' !! x') /\ rho x' = x)) (get_template k th t name) (get_template k' th' t' name) /\
    orel (same_answer (fun x' x => is_Some (th' !! x') /\ rho x' = x)) (get_template k th' t' name) (get_template k' th t name).
  Proof.
    intros (M1 & M2 & M3 & M4) k. induction k as [|k IH]; intros k' t t' name Hk [X HX] Hr; [split; by left|].
    destruct k' as [|k']; [lia|]. cbn [get_template]. rewrite HX. destruct (M2 t' X HX) as (O & HO & _ & Hrest). rewrite Hr in HO. rewrite HO.
    destruct (Hrest ltac:(by intros Hn%elem_of_nil)) as (S1 & S2 & S3 & S4). specialize (S1 name). specialize (S3 name).
    assert (Es : forall T, t_subs T ≫= (fun m => m !! name) = subs_of T !! name) by (intros T; unfold subs_of; by destruct (t_subs T)).
    rewrite !Es. destruct (subs_of X !! name) as [y|] eqn:Ey; cbn in S1; rewrite <- S1.
    - split; apply orel_ok; (split; [by eapply S3|done]).
    - destruct (t_father X) as [f|] eqn:Ef; cbn in S2; rewrite <- S2.
      + apply IH; [lia|by apply S4|done].
      + split; by apply orel_ok.
  Qed.
  Lemma mirror_renders F ord th' rho t' n lg st : mirrors th' rho [] -> is_Some (th' !! t') ->
    injector F ord th' n lg st t' = injector F ord th n lg st (rho t').
  Proof.
    intros HM Ht. apply orel_eq.
    - apply (injector_sim F ord th' th (fun x' x => is_Some (th' !! x') /\ rho x' = x)); [done| | |done].
      + intros k k' Hk t0 t0' name [Hd Hr]. by apply (proj2 (mirror_lookups th' rho HM k k' t0' t0 name Hk Hd Hr)).
      + intros t0 t0' [[X HX] <-]. rewrite HX. destruct HM as (_ & M2 & _). destruct (M2 t0 X HX) as (O & -> & Hr & _).
        unfold same_root. rewrite Hr. by destruct (t_root O).
    - apply (injector_sim F ord th th' (fun x x' => is_Some (th' !! x') /\ rho x' = x)); [done| | |done].
      + intros k k' Hk t0 t0' name [Hd Hr]. by apply (proj1 (mirror_lookups th' rho HM k k' t0 t0' name Hk Hd Hr)).
      + intros t0 t0' [[X HX] <-]. rewrite HX. destruct HM as (_ & M2 & _). destruct (M2 t0' X HX) as (O & -> & Hr & _).
        unfold same_root. rewrite Hr. by destruct (t_root O).
  Qed.
  Lemma clone_renders F ord n t th' c : is_Some (th !! t) -> tclone tord n th t = Ok (th', c) ->
    th !! c = None /\ (forall k lg st, injector F ord th' k lg st c = injector F ord th k lg st t) /\
    forall x k lg st, is_Some (th !! x) -> injector F ord th' k lg st x = injector F ord th k lg st x.
  Proof.
    intros Ht H. destruct (tclone_clones n th id [] t th' c mirrors_start Ht H) as (rho & HM & He & Hc & Hrc & Hfr).
    split; [done|]. split.
    - intros k lg st. rewrite (mirror_renders F ord th' rho c) by done. by rewrite Hrc.
    - intros x k lg st Hx. destruct (He x Hx) as [Hx' Er]. rewrite (mirror_renders F ord th' rho x) by done. by rewrite Er.
  Qed.
  Lemma clone_executes F ord langs n t th' c : is_Some (th !! t) -> tclone tord n th t = Ok (th', c) ->
    th !! c = None /\ (forall k h data, execute F ord langs th' k h c data = execute F ord langs th k h t data) /\
    forall x k h data, is_Some (th !! x) -> execute F ord langs th' k h x data = execute F ord langs th k h x data.
  Proof.
    intros Ht H. destruct (clone_renders F ord n t th' c Ht H) as (H0 & H1 & H2). split; [done|]. split.
    - intros k h [d|]; unfold execute; [|by rewrite H1]. destruct (dget k h d (B "#")); cbn [obind]; [|reflexivity..]. by rewrite H1.
    - intros x k h [d|] Hx; unfold execute; [|by rewrite H2]. destruct (dget k h d (B "#")); cbn [obind]; [|reflexivity..]. by rewrite H2 by done.
  Qed.

  (** ** Cloning ends *)
  Definition below (y x : loc) : Prop := exists T n, th !! x = Some T /\ subs_of T !! n = Some y.
  Lemma clone_ends t : Acc below t -> is_Some (th !! t) -> exists n0, forall n th1 rho P, (n0 <= n)%nat -> mirrors th1 rho P ->
    exists r, tclone tord n th1 t = Ok r.
  Proof.
    induction 1 as [t _ IH]. intros [T HT].
    assert (Hall : forall l : list (bytes * loc), (forall k x, (k, x) ∈ l -> subs_of T !! k = Some x) ->
      exists n0, forall k x, (k, x) ∈ l -> forall n th1 rho P, (n0 <= n)%nat -> mirrors th1 rho P -> exists r, tclone tord n th1 x = Ok r).
    { induction l as [|[k x] l IHl]; intros Hl; [exists 0%nat; by intros k x Hin%elem_of_nil|].
      destruct IHl as [n1 H1]; [intros; apply Hl; by apply elem_of_list_further|].
      assert (Hs : subs_of T !! k = Some x) by (apply Hl, elem_of_list_here).
      destruct (IH x) as [n2 H2]; [by exists T, k|destruct (Hcons t T k x HT Hs) as (X & HX & _); by exists X|].
      exists (n1 `max` n2)%nat. intros k' x' [[= -> ->]|Hin]%elem_of_cons n th1 rho P Hn HM; [eapply H2; [lia|done]|eapply H1; [done|lia|done]]. }
    destruct (Hall (map_to_list (subs_of T))) as [n0 H0]; [by intros k x Hin%elem_of_map_to_list|].
    exists (S n0). intros n th1 rho P Hn HM. destruct n as [|n]; [lia|]. cbn [tclone].
    pose proof HM as (M1 & M2 & M3 & M4). destruct (M3 t T HT) as (T1 & HT1 & HS1). rewrite HT1.
    assert (Hroot : t_root T1 = t_root T).
    { destruct (M2 t T1 HT1) as (O & HO & HrO & _). rewrite (M1 t) in HO by (by exists T). congruence. }
    unfold talloc. destruct (mirrors_alloc th1 rho P t (Tmpl (t_name T1) (t_root T1) None None) T HM HT Hroot) as (HM0 & He0 & Hrc & Hc).
    set (c0 := fresh (dom th1)) in *. set (rho0 := fun x => if decide (x = c0) then t else rho x) in *.
    set (th0 := <[c0 := Tmpl (t_name T1) (t_root T1) None None]> th1) in *.
    destruct (t_subs T1) as [m|] eqn:Hm; [|by eexists].
    assert (Em : subs_of T = m) by (unfold subs_of; by rewrite <- HS1).
    assert (Hloop : forall l thi rhoi m', (forall k x, (k, x) ∈ l -> m !! k = Some x) -> mirrors thi rhoi (c0 :: P) -> is_Some (thi !! c0) -> rhoi c0 = t ->
      exists r, clone_subs (tclone tord n) l thi c0 m' = Ok r).
    { induction l as [|[k x] l IHl]; intros thi rhoi m' Hl HMi Hci Hri; [by eexists|]. cbn [clone_subs].
      assert (Hs : m !! k = Some x) by (apply Hl, elem_of_list_here).
      assert (HsT : subs_of T !! k = Some x) by (by rewrite Em). destruct (Hcons t T k x HT HsT) as (X & HX & Hfx).
      destruct (H0 k x) with (n := n) (th1 := thi) (rho := rhoi) (P := c0 :: P) as [[th2 x'] E]; [rewrite Em; by apply elem_of_map_to_list|lia|done|].
      rewrite E. cbn [obind].
      destruct (tclone_clones n thi rhoi (c0 :: P) x th2 x' HMi) as (rho1 & HM1 & He1 & _ & _ & _); [by exists X|done|].
      destruct (He1 c0 Hci) as [Hc1 Er1].
      apply (IHl _ rho1).
      - intros k' x0 Hin. apply Hl. by apply elem_of_list_further.
      - eapply (mirrors_father th2 rho1 (c0 :: P) x c0 t X); [done|done|done|done|congruence].
      - by apply is_Some_alter.
      - etransitivity; [exact Er1|exact Hri]. }
    destruct (Hloop (tord th1 m) th0 rho0 ∅) as [[th2 m2] E].
    - intros k x Hin. apply elem_of_map_to_list. by rewrite <- (Hord th1 m).
    - done.
    - unfold th0. rewrite lookup_insert. by eexists.
    - done.
    - rewrite E. by eexists.
  Qed.
  Inductive depth : loc -> nat -> Prop :=
  | dp_top x X : th !! x = Some X -> t_father X = None -> depth x 0
  | dp_under x X f n : th !! x = Some X -> t_father X = Some f -> depth f n -> depth x (S n).
  Lemma depth_unique x n m : depth x n -> depth x m -> n = m.
  Proof. intros H. revert m. induction H as [x X HX Hf|x X f n HX Hf _ IH]; intros m Hm; inversion Hm; simplify_eq; [done|]. f_equal. by apply IH. Qed.
  Lemma depth_below x n k : depth x n -> (k <= n)%nat -> exists y, depth y k.
  Proof.
    intros H. induction H as [x X HX Hf|x X f n HX Hf H IH]; intros Hk.
    - exists x. assert (k = 0%nat) as -> by lia. by eapply dp_top.
    - destruct (decide (k = S n)) as [->|]; [exists x; by eapply dp_under|]. apply IH. lia.
  Qed.
  Lemma depth_bound x n : depth x n -> (n < size (dom th))%nat.
  Proof.
    intros H. assert (Hl : forall k, (k <= S n)%nat -> exists l : list loc, length l = k /\ NoDup l /\ forall y, y ∈ l -> y ∈ dom th /\ exists j, (j < k)%nat /\ depth y j).
    { induction k as [|k IH]; intros Hk; [exists []; split; [done|]; split; [constructor|]; by intros y Hy%elem_of_nil|].
      destruct IH as (l & Hl & Hnd & Hd); [lia|]. destruct (depth_below x n k H) as [y Hy]; [lia|]. exists (y :: l). split; [simpl; lia|]. split.
      - constructor; [|done]. intros Hin. destruct (Hd y Hin) as (_ & j & Hj & Hyj). assert (j = k) by (by eapply depth_unique). lia.
      - intros z [->|Hz]%elem_of_cons.
        + split; [inversion Hy; subst; by eapply elem_of_dom_2|]. exists k. split; [lia|done].
        + destruct (Hd z Hz) as (Hz1 & j & Hj & Hzj). split; [done|]. exists j. split; [lia|done]. }
    destruct (Hl (S n)) as (l & Hlen & Hnd & Hd); [lia|].
    assert (Hs : (size (list_to_set l : gset loc) <= size (dom th))%nat) by (apply subseteq_size; intros y Hy%elem_of_list_to_set; by apply Hd).
    rewrite size_list_to_set in Hs by done. lia.
  Qed.
  Lemma below_acc x : rooted th -> is_Some (th !! x) -> Acc below x.
  Proof.
    intros Hr Hx. assert (Hd : exists n, depth x n).
    { clear -Hr Hx Hclosed. induction (Hr x) as [x _ IH]. destruct Hx as [X HX]. destruct (t_father X) as [f|] eqn:Ef; [|exists 0%nat; by eapply dp_top].
      destruct (IH f) as [n Hn]; [by exists X|by eapply (proj2 Hclosed)|]. exists (S n). by eapply dp_under. }
    destruct Hd as [n Hn]. remember (size (dom th) - n)%nat as k eqn:Ek. revert x n Hx Hn Ek. induction k as [k IH] using lt_wf_ind.
    intros x n Hx Hn ->. constructor. intros y (T & nm & HT & Hs). destruct (Hcons x T nm y HT Hs) as (Y & HY & Hf).
    assert (Hdy : depth y (S n)) by (by eapply dp_under). pose proof (depth_bound y (S n) Hdy).
    eapply (IH (size (dom th) - S n)%nat); [lia|by exists Y|exact Hdy|done].
  Qed.
  Lemma clone_total t : rooted th -> is_Some (th !! t) -> exists n th' c, tclone tord n th t = Ok (th', c).
  Proof.
    intros Hr Ht. destruct (clone_ends t (below_acc t Hr Ht) Ht) as [n H]. destruct (H n th id [] (le_n n) mirrors_start) as [[th' c] E].
    by exists n, th', c.
  Qed.
End Clone.

(** ** Loading keeps the fathers consistent *)
Definition held (th : theap) (x y : loc) : Prop := exists Y n, th !! y = Some Y /\ subs_of Y !! n = Some x.
Lemma held_alter th f a x y : (forall T, t_subs (f T) = t_subs T) -> held (alter f a th) x y <-> held th x y.
Proof.
  intros Hf. unfold held. split.
  - intros (Y & n & HY & Hs). destruct (decide (y = a)) as [->|].
    + rewrite lookup_alter in HY. destruct (th !! a) as [T|]; [|done]. injection HY as <-. exists T, n. split; [done|]. unfold subs_of in *. by rewrite Hf in Hs.
    + rewrite lookup_alter_ne in HY by done. by exists Y, n.
  - intros (Y & n & HY & Hs). destruct (decide (y = a)) as [->|].
    + exists (f Y), n. rewrite lookup_alter, HY. split; [done|]. unfold subs_of in *. by rewrite Hf.
    + exists Y, n. by rewrite lookup_alter_ne.
Qed.
Lemma consistent_held th : consistent th <-> forall x y, held th x y -> exists X, th !! x = Some X /\ t_father X = Some y.
Proof. split; [intros H x y (Y & n & HY & Hs); by eapply H|]. intros H t T n x HT Hs. apply H. by exists T, n. Qed.
Lemma add_held th t name tm x y : tm <> t -> is_Some (th !! t) -> held (add_template th t name tm) x y -> held th x y \/ (x = tm /\ y = t).
Proof.
  intros Hne [T HT]. unfold add_template. rewrite HT. intros (Y & n & HY & Hs). destruct (decide (y = t)) as [->|Hy].
  - rewrite lookup_alter, lookup_alter_ne, HT in HY by done. injection HY as <-. cbn in Hs.
    destruct (decide (n = name)) as [->|]; [rewrite lookup_insert in Hs; injection Hs as <-; by right|].
    rewrite lookup_insert_ne in Hs by done. left. by exists T, n.
  - rewrite lookup_alter_ne in HY by done. left. apply (held_alter th (fun X => Tmpl (t_name X) (t_root X) (t_subs X) (Some t)) tm x y); [done|]. by exists Y, n.
Qed.
Lemma consistent_add th t name tm : consistent th -> tm <> t -> is_Some (th !! t) -> is_Some (th !! tm) -> (forall y, held th tm y -> y = t) ->
  consistent (add_template th t name tm) /\ forall y, held (add_template th t name tm) tm y -> y = t.
Proof.
  intros Hc Hne Ht [M HM] Hh. split.
  - apply consistent_held. intros x y Hxy. apply add_held in Hxy; [|done|done]. destruct Ht as [T HT]. unfold add_template. rewrite HT.
    assert (E : forall X, th !! x = Some X -> (x = tm -> y = t) -> t_father X = Some y -> exists X0,
      alter (fun X => Tmpl (t_name X) (t_root X) (Some (<[name := tm]> match t_subs T with Some m => m | None => ∅ end)) (t_father X)) t
        (alter (fun X => Tmpl (t_name X) (t_root X) (t_subs X) (Some t)) tm th) !! x = Some X0 /\ t_father X0 = Some y).
    { intros X HX Hy Hf. destruct (decide (x = t)) as [->|].
      - rewrite lookup_alter, lookup_alter_ne by done. rewrite HX. eexists. split; [done|]. done.
      - rewrite lookup_alter_ne by done. destruct (decide (x = tm)) as [->|]; [|rewrite lookup_alter_ne by done; by exists X].
        rewrite lookup_alter, HX. eexists. split; [done|]. cbn. by rewrite Hy. }
    destruct Hxy as [Hxy|[-> ->]].
    + destruct (proj1 (consistent_held th) Hc x y Hxy) as (X & HX & Hf). apply (E X); [done| |done]. intros ->. by apply Hh.
    + rewrite lookup_alter_ne by done. rewrite lookup_alter, HM. eexists. split; [done|]. done.
  - intros y Hy. apply add_held in Hy; [|done|done]. destruct Hy as [Hy|[_ ->]]; [by apply Hh|done].
Qed.
Lemma consistent_register th t name tm : consistent th -> tm <> t -> is_Some (th !! t) -> is_Some (th !! tm) -> (forall y, held th tm y -> y = t) ->
  consistent (register th t name tm) /\ forall x y, held (register th t name tm) x y -> held th x y \/ (x = tm /\ y = t).
Proof.
  intros Hc Hne Ht HM Hh. unfold register. case_bool_decide.
  2:{ split; [by apply consistent_add|]. intros x y. by apply add_held. }
  generalize (split_on "|"%char name). intros ws. revert th Hc Ht HM Hh. induction ws as [|w ws IH]; intros th Hc Ht HM Hh; [split; [done|by left]|]. simpl.
  destruct w as [|ch w]; [by apply IH|]. destruct (consistent_add th t (ch :: w) tm Hc Hne Ht HM Hh) as [C1 C2].
  destruct (IH (add_template th t (ch :: w) tm) C1) as [G1 G2]; [by apply is_Some_add|by apply is_Some_add|done|].
  split; [done|]. intros x y Hxy. destruct (G2 x y Hxy) as [G|G]; [by apply add_held in G|by right].
Qed.
Definition tidy (th : theap) (t : loc) (s : cstate) : Prop :=
  good th s /\ consistent (s_heap s) /\ NoDup (s_actual s :: s_uppers s) /\ last (s_actual s :: s_uppers s) = Some t /\
  forall a y, a ∈ s_actual s :: s_uppers s -> a <> t -> ~ held (s_heap s) a y.
Lemma tidy_step th t i s s' : second_step i s = Some s' -> tidy th t s -> tidy th t s'.
Proof.
  intros Hs (G & T1 & T2 & T3 & T4). pose proof (good_step th i s s' Hs G) as G'. split; [done|].
  destruct G as (G1 & G2 & G3 & G4). unfold second_step in Hs. destruct (s_compiled s !! i) as [x|]; [|by injection Hs as <-].
  case_bool_decide.
  - unfold talloc in Hs. injection Hs as <-. set (a := fresh (dom (s_heap s))) in *.
    assert (Ha : s_heap s !! a = None) by (apply not_elem_of_dom, is_fresh). cbn [s_heap s_actual s_uppers].
    assert (Hst : forall y, y ∈ s_actual s :: s_uppers s -> is_Some (s_heap s !! y)).
    { intros y [->|Hy]%elem_of_cons; [done|]. rewrite Forall_forall in G3. by apply G3. }
    assert (Hheld : forall z y, held (<[a := Tmpl (p_data x) None None None]> (s_heap s)) z y -> held (s_heap s) z y).
    { intros z y (Y & n & HY & Hn). destruct (decide (y = a)) as [->|]; [rewrite lookup_insert in HY; injection HY as <-; cbn in Hn; by rewrite lookup_empty in Hn|].
      rewrite lookup_insert_ne in HY by done. by exists Y, n. }
    split; [|split; [|split]].
    + apply consistent_held. intros z y Hz%Hheld. destruct (proj1 (consistent_held _) T1 z y Hz) as (Z & HZ & Hf). exists Z. split; [|done].
      rewrite lookup_insert_ne; [done|]. intros <-. congruence.
    + constructor; [|done]. intros Hin. destruct (Hst a Hin) as [A HA]. congruence.
    + rewrite last_cons. by rewrite T3.
    + intros z y [->|Hz]%elem_of_cons Hzt Hh%Hheld; [|by apply (T4 z y)]. destruct Hh as (Y & n & HY & Hn).
      destruct (proj1 G1 y Y n a HY Hn) as [A HA]. congruence.
  - case_bool_decide; [|by injection Hs as <-]. destruct (s_starts s) as [|sp starts]; [done|].
    destruct (s_uppers s) as [|up uppers] eqn:Eu; [done|]. injection Hs as <-. cbn [s_heap s_actual s_uppers].
    apply NoDup_cons in T2 as [N1 N2]. assert (Hne : s_actual s <> up) by (intros E; apply N1; rewrite E; apply elem_of_list_here).
    assert (Hnt : s_actual s <> t).
    { intros Eat. apply N1. rewrite Eat. rewrite last_cons in T3. destruct (last (up :: uppers)) as [z|] eqn:El; [|by rewrite last_cons in El; destruct (last uppers)].
      injection T3 as ->. by apply last_Some_elem_of in El. }
    apply Forall_cons in G3 as [G3 G3'].
    match goal with |- context [register (alter ?f ?b ?hh) ?u ?nm ?tm] =>
      assert (Hha : forall x y, held (alter f b hh) x y <-> held hh x y) by (intros; by apply held_alter);
      destruct (consistent_register (alter f b hh) u nm tm) as [C1 C2]; [..|set (hn := register (alter f b hh) u nm tm) in *] end.
    + apply consistent_held. intros z y Hz%Hha. destruct (proj1 (consistent_held _) T1 z y Hz) as (Z & HZ & Hf).
      destruct (decide (z = s_actual s)) as [->|]; [rewrite lookup_alter, HZ; eexists; split; [done|]; done|rewrite lookup_alter_ne by done; by exists Z].
    + done.
    + by apply is_Some_alter.
    + by apply is_Some_alter.
    + intros y Hy%Hha. by destruct (T4 (s_actual s) y (elem_of_list_here _ _) Hnt).
    + split; [done|]. split; [done|]. split; [rewrite last_cons in T3; destruct (last (up :: uppers)) eqn:El; [done|by rewrite last_cons in El; destruct (last uppers)]|].
      intros a y Hin Hat Hh. destruct (C2 a y Hh) as [Hh'%Hha|[-> ->]].
      * apply (T4 a y); [by apply elem_of_list_further|done|done].
      * done.
Qed.
Lemma tidy_pass th t k i s : tidy th t s -> tidy th t (second_pass k i s).1.
Proof.
  revert i s. induction k as [|k IH]; intros i s Hg; cbn [second_pass]; [done|].
  destruct (second_step i s) as [s'|] eqn:E; [|done]. apply IH. by eapply tidy_step.
Qed.
Lemma compile_consistent th t data : closed th -> consistent th -> is_Some (th !! t) -> consistent (compile th t data).1.
Proof.
  intros Hc Hk Ht. unfold compile. pose proof (tidy_pass th t (length (first_pass data)) 0 (CState [] [] t (first_pass data) th)) as Hg.
  destruct (second_pass _ _ _) as [s ok]. destruct Hg as (_ & G & _).
  - split; [split; [done|split; [done|split; [constructor|done]]]|]. split; [done|]. cbn [s_actual s_uppers]. split; [apply NoDup_singleton|]. split; [done|].
    intros a y ->%elem_of_list_singleton. done.
  - cbn [fst] in *. destruct ok; [|done]. destruct (s_starts s); [|done]. cbn [fst]. apply consistent_held. intros z y Hz.
    apply held_alter in Hz; [|done]. destruct (proj1 (consistent_held _) G z y Hz) as (Z & HZ & Hf).
    destruct (decide (z = t)) as [->|]; [rewrite lookup_alter, HZ; eexists; split; [done|]; done|rewrite lookup_alter_ne by done; by exists Z].
Qed.
Lemma closed_new th t : closed th -> th !! t = None -> closed (<[t := empty_tmpl]> th).
Proof.
  intros Hc Ha. assert (Hk : forall y, is_Some (th !! y) -> is_Some (<[t := empty_tmpl]> th !! y)).
  { intros y Hy. rewrite lookup_insert_ne; [done|]. intros <-. rewrite Ha in Hy. by destruct Hy. }
  split.
  - intros y Y n z. destruct (decide (y = t)) as [->|]; [rewrite lookup_insert; intros [= <-]; cbn; by rewrite lookup_empty|].
    rewrite lookup_insert_ne by done. intros HY Hz. apply Hk. by eapply (proj1 Hc).
  - intros y Y z. destruct (decide (y = t)) as [->|]; [rewrite lookup_insert; by intros [= <-]|].
    rewrite lookup_insert_ne by done. intros HY Hz. apply Hk. by eapply (proj2 Hc).
Qed.
Lemma new_template_consistent th data : closed th -> consistent th -> consistent (new_template th data).1.
Proof.
  intros Hc Hk. rewrite new_template_unfold. cbn zeta. set (t := fresh (dom th)).
  assert (Ha : th !! t = None) by (apply not_elem_of_dom, is_fresh).
  assert (Hk1 : consistent (<[t := empty_tmpl]> th)).
  { intros y Y n z. destruct (decide (y = t)) as [->|]; [rewrite lookup_insert; intros [= <-]; cbn; by rewrite lookup_empty|].
    rewrite lookup_insert_ne by done. intros HY Hz. destruct (Hk y Y n z HY Hz) as (Z & HZ & Hf). exists Z. split; [|done].
    rewrite lookup_insert_ne; [done|]. intros <-. congruence. }
  pose proof (compile_consistent (<[t := empty_tmpl]> th) t data (closed_new th t Hc Ha) Hk1) as H. destruct (compile _ t data) as [th2 ok]. cbn [fst] in *.
  destruct ok; cbn [fst]; apply H; rewrite lookup_insert; by eexists.
Qed.
Lemma no_templates_consistent : consistent ∅.
Proof. intros t T n x H. by rewrite lookup_empty in H. Qed.
