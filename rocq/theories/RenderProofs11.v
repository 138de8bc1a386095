(** * Clones: whose boxes are whose afterwards. *)
From Verif Require Import GoBase GoStrings GoStringsProofs Regex DatasetModel LangModel DatasetSpec 
  TemplateModel TemplateSpec TemplateProofs5 TemplateProofs6 RenderSpec RenderProofs2 RenderProofs6 RenderProofs9 RenderProofs10.
Local Open Scope Z_scope.

Section Ties.
  Context (tord : theap -> gmap bytes loc -> list (bytes * loc)) (th : theap).
  Context (Hord : any_order tord) (Hclosed : closed th) (Hcons : consistent th) (Hrooted : rooted th).
  Notation under := (tc (below th)).
  Lemma depth_exists x : is_Some (th !! x) -> exists n, depth th x n.
  Proof.
    induction (Hrooted x) as [x _ IH]. intros [X HX]. destruct (t_father X) as [f|] eqn:Ef; [|exists 0%nat; by eapply dp_top].
    destruct (IH f) as [n Hn]; [by exists X|by eapply (proj2 Hclosed)|]. exists (S n). by eapply dp_under.
  Qed.
  Lemma below_depth x y n : below th y x -> depth th x n -> depth th y (S n).
  Proof. intros (T & k & HT & Hs) Hx. destruct (Hcons _ _ _ _ HT Hs) as (Y & HY & Hf). by eapply dp_under. Qed.
  Lemma under_dom x y : under y x -> is_Some (th !! y) /\ is_Some (th !! x).
  Proof.
    induction 1 as [y x (T & k & HT & Hs)|y z x (T & k & HT & Hs) _ [IH1 IH2]]; destruct (Hcons _ _ _ _ HT Hs) as (Y & HY & _).
    - split; [by exists Y|by exists T].
    - split; [by exists Y|done].
  Qed.
  Lemma under_depth x y : under y x -> forall n, depth th x n -> exists m, (n < m)%nat /\ depth th y m.
  Proof.
    induction 1 as [y x Hb|y z x Hb _ IH]; intros n Hx.
    - exists (S n). split; [lia|by eapply below_depth].
    - destruct (IH n Hx) as (m & Hm & Hz). exists (S m). split; [lia|by eapply below_depth].
  Qed.
  Lemma no_loop x : ~ under x x.
  Proof.
    intros H. destruct (under_dom _ _ H) as [Hx _]. destruct (depth_exists x Hx) as [n Hn]. destruct (under_depth x x H n Hn) as (m & Hm & Hd).
    assert (n = m) by (by eapply depth_unique). lia.
  Qed.
  (** Two boxes of one template are not inside each other. *)
  Lemma siblings t x y : below th x t -> below th y t -> ~ under x y.
  Proof.
    intros Hx Hy Hu. destruct (under_dom _ _ (tc_once _ _ _ Hx)) as [_ Ht]. destruct (depth_exists t Ht) as [n Hn].
    pose proof (below_depth _ _ _ Hx Hn) as Dx. pose proof (below_depth _ _ _ Hy Hn) as Dy.
    destruct (under_depth _ _ Hu _ Dy) as (m & Hm & Hd). assert (m = S n) by (by eapply depth_unique). lia.
  Qed.
  Definition keeps (cl : theap -> loc -> outcome (theap * loc)) : Prop :=
    forall th1 rho P t th2 c, mirrors th th1 rho P -> is_Some (th !! t) -> cl th1 t = Ok (th2, c) ->
      (forall y, is_Some (th1 !! y) -> ~ under y t -> th2 !! y = th1 !! y) /\
      (exists T C, th1 !! t = Some T /\ th2 !! c = Some C /\ t_father C = t_father T).
  Definition father_of (th' : theap) (x : loc) : option loc := match th' !! x with Some X => t_father X | None => None end.
  Lemma loop_keeps cl t T : keeps cl -> clones th cl -> th !! t = Some T ->
    forall l th1 rho P c m' th2 m2, mirrors th th1 rho P -> is_Some (th1 !! c) -> rho c = t -> th !! c = None ->
      (forall k x, (k, x) ∈ l -> subs_of T !! k = Some x) -> (forall k y, m' !! k = Some y -> is_Some (th1 !! y) /\ th !! y = None /\ y <> c) ->
      clone_subs cl l th1 c m' = Ok (th2, m2) ->
      (forall y, is_Some (th1 !! y) -> y ∉ l.*2 -> (forall x, x ∈ l.*2 -> ~ under y x) -> th2 !! y = th1 !! y) /\
      (forall x k, subs_of T !! k = Some x -> x ∈ l.*2 \/ father_of th1 x = Some c -> father_of th2 x = Some c) /\
      (NoDup l.*2 -> NoDup l.*1 -> (forall x, x ∈ l.*2 -> father_of th1 x = Some t) -> (forall k y, m' !! k = Some y -> father_of th1 y = Some t) ->
         forall k y, m2 !! k = Some y -> father_of th2 y = Some t).
  Proof.
    intros Hk Hcl HT l. induction l as [|[k x] l IH]; intros th1 rho P c m' th2 m2 HM Hc Hrc Hct Hl Hm H.
    - injection H as <- <-. split; [done|]. split; [intros x k Hs [Hx|Hx]; [by apply elem_of_nil in Hx|done]|]. done.
    - cbn [clone_subs] in H. apply obind_ok in H as ([th1' x'] & Hx & H).
      assert (Hsub : subs_of T !! k = Some x) by (apply Hl, elem_of_list_here). assert (Hbx : below th x t) by (by exists T, k).
      destruct (Hcons t T k x HT Hsub) as (X & HX & Hfx). assert (HXs : is_Some (th !! x)) by (by exists X).
      destruct (Hcl th1 rho P x th1' x' HM HXs Hx) as (rho1 & HM1 & He1 & Hx'd & Hrx & Hfr).
      destruct (Hk th1 rho P x th1' x' HM HXs Hx) as (Hkeep & X1 & C1 & HX1 & HC1 & Hfa).
      destruct (He1 c Hc) as [Hc1 Erc].
      assert (Hx'x : x' <> x) by (intros ->; congruence). 
      assert (Hx't : th !! x' = None). { destruct (th !! x') as [O|] eqn:EO; [|done]. destruct HM as (_ & _ & M3 & _). destruct (M3 x' O EO) as (Z & HZ & _). congruence. }
      assert (Hcx : c <> x) by (intros ->; congruence). assert (Hx'c : x' <> c) by (intros ->; rewrite Hfr in Hc; by destruct Hc).
      set (th2' := alter (fun X => Tmpl (t_name X) (t_root X) (t_subs X) (Some c)) x th1') in *.
      destruct (IH th2' rho1 P c (<[k := x']> m') th2 m2) as (I1 & I2 & I3).
      + eapply (mirrors_father th th1' rho1 P x c t X); [done|done|done|done|congruence].
      + by apply is_Some_alter.
      + congruence.
      + done.
      + intros k0 x0 Hin. apply Hl. by apply elem_of_list_further.
      + intros k0 y. destruct (decide (k0 = k)) as [->|]; [rewrite lookup_insert; intros [= <-]; split; [by apply is_Some_alter|done]|].
        rewrite lookup_insert_ne by done. intros Hy. destruct (Hm k0 y Hy) as [[Y HY] Hyt]. split; [|done]. apply is_Some_alter. by apply He1.
      + exact H.
      + assert (Hold : forall y, is_Some (th1 !! y) -> y <> x -> ~ under y x -> th2' !! y = th1 !! y).
        { intros y Hy Hne Hu. unfold th2'. rewrite lookup_alter_ne by done. by apply Hkeep. }
        assert (Hin : forall y, y ∈ l.*2 -> below th y t).
        { intros y ((k0 & y0) & -> & Hin)%elem_of_list_fmap. exists T, k0. split; [done|]. apply Hl. by apply elem_of_list_further. }
        assert (Hnu : forall y z, th !! y = None -> ~ under y z) by (intros y z Hy Hu; destruct (under_dom _ _ Hu) as [[Y HY] _]; congruence).
        assert (HM' : forall y O, th !! y = Some O -> is_Some (th1 !! y)) by (intros y O HO; destruct HM as (_ & _ & M3 & _); destruct (M3 y O HO) as (Z & HZ & _); by exists Z).
        assert (HoldT : forall y, below th y t -> y <> x -> th2' !! y = th1 !! y).
        { intros y Hy Hne. apply Hold; [|done|by eapply siblings]. destruct (under_dom _ _ (tc_once _ _ _ Hy)) as [[Y HY] _]. by eapply HM'. }
        split; [|split].
        * intros y Hy Hn Hu. cbn [fmap list_fmap] in Hn. apply not_elem_of_cons in Hn as [Hn1 Hn2]. cbn in Hn1.
          rewrite I1; [|apply is_Some_alter; by apply He1|done|intros z Hz; apply Hu; by apply elem_of_list_further].
          apply Hold; [done|done|]. apply Hu, elem_of_list_here.
        * intros y k0 Hs Hor. apply (I2 y k0 Hs). destruct (decide (y = x)) as [->|Hne].
          -- right. unfold father_of, th2'. rewrite lookup_alter. destruct (proj1 (He1 x (HM' x X HX))) as [Z ->]. done.
          -- destruct Hor as [Hor|Hor]; [left; by apply elem_of_cons in Hor as [->|?]|]. right. unfold father_of. rewrite HoldT; [done|by exists T, k0|done].
        * intros N2 N1 Hft Hfm. cbn [fmap list_fmap] in N1, N2. apply NoDup_cons in N1 as [N1 N1']. apply NoDup_cons in N2 as [N2 N2']. apply I3; [done|done| |].
          -- intros y Hy. unfold father_of. rewrite HoldT; [|by apply Hin|intros ->; by apply N2]. apply Hft. by apply elem_of_list_further.
          -- intros k0 y. destruct (decide (k0 = k)) as [->|].
             ++ rewrite lookup_insert. intros [= <-]. unfold father_of, th2'. rewrite lookup_alter_ne by done. rewrite HC1, Hfa.
                pose proof (Hft x (elem_of_list_here _ _)) as Hf. unfold father_of in Hf. by rewrite HX1 in Hf.
             ++ rewrite lookup_insert_ne by done. intros Hy. destruct (Hm k0 y Hy) as (Hyd & Hyt & _). unfold father_of.
                rewrite Hold; [by apply (Hfm k0)|done|intros ->; congruence|by apply Hnu].
  Qed.
  Lemma tclone_keeps n : keeps (tclone tord n).
  Proof.
    induction n as [|n IH]; intros th1 rho P t th2 c HM [T HT] H; cbn [tclone] in H; [done|].
    pose proof HM as (M1 & M2 & M3 & M4). destruct (M3 t T HT) as (T1 & HT1 & HS1). rewrite HT1 in H.
    assert (Hroot : t_root T1 = t_root T).
    { destruct (M2 t T1 HT1) as (O & HO & HrO & _). rewrite (M1 t) in HO by (by exists T). congruence. }
    unfold talloc in H.
    destruct (mirrors_alloc th th1 rho P t (Tmpl (t_name T1) (t_root T1) None None) T HM HT Hroot) as (HM0 & He0 & Hrc & Hc).
    set (c0 := fresh (dom th1)) in *. set (rho0 := fun x => if decide (x = c0) then t else rho x) in *.
    set (th0 := <[c0 := Tmpl (t_name T1) (t_root T1) None None]> th1) in *.
    assert (Hc0 : is_Some (th0 !! c0)) by (unfold th0; rewrite lookup_insert; by eexists).
    assert (Hct : th !! c0 = None) by (destruct (th !! c0) as [O|] eqn:E; [destruct (M3 c0 O E) as (X & HX & _); congruence|done]).
    assert (Hne : forall y, is_Some (th1 !! y) -> y <> c0) by (intros y [Y HY] ->; congruence).
    assert (Hth0 : forall y, is_Some (th1 !! y) -> th0 !! y = th1 !! y) by (intros y Hy; unfold th0; rewrite lookup_insert_ne; [done|]; by apply not_eq_sym, Hne).
    destruct (t_subs T1) as [m|] eqn:Hm.
    - apply obind_ok in H as ([th2' m2] & H & H'). injection H' as <- <-.
      assert (Em : subs_of T = m) by (unfold subs_of; by rewrite <- HS1).
      assert (Hbl : forall x, x ∈ (tord th1 m).*2 -> below th x t).
      { intros x ((k & y) & -> & Hin)%elem_of_list_fmap. exists T, k. split; [done|]. rewrite Em. apply elem_of_map_to_list. by rewrite <- (Hord th1 m). }
      destruct (loop_keeps (tclone tord n) t T IH (tclone_clones tord th Hord Hcons n) HT (tord th1 m) th0 rho0 (c0 :: P) c0 ∅ th2' m2) as (I1 & _ & _); try done.
      + intros k x Hin. rewrite Em. apply elem_of_map_to_list. by rewrite <- (Hord th1 m).
      + assert (Hkeep : forall y, is_Some (th1 !! y) -> ~ under y t -> th2' !! y = th1 !! y).
        { intros y Hy Hu. rewrite I1; [by apply Hth0|by rewrite Hth0| |].
          - intros Hin. apply Hu, tc_once. by apply Hbl.
          - intros x Hin Hux. apply Hu. eapply tc_transitive; [exact Hux|]. apply tc_once. by apply Hbl. }
        split.
        * intros y Hy Hu. rewrite lookup_alter_ne by (by apply not_eq_sym, Hne). by apply Hkeep.
        * exists T1. rewrite lookup_alter. rewrite (I1 c0); [|done| |].
          -- unfold th0 at 1. rewrite lookup_insert. eexists. split; [done|]. split; [done|]. cbn. rewrite (Hkeep t); [by rewrite HT1|by exists T1|apply no_loop].
          -- intros Hin%Hbl. destruct (under_dom _ _ (tc_once _ _ _ Hin)) as [[Z HZ] _]. congruence.
          -- intros x _ Hux. destruct (under_dom _ _ Hux) as [[Z HZ] _]. congruence.
    - injection H as <- <-. split.
      + intros y Hy Hu. rewrite lookup_alter_ne by (by apply not_eq_sym, Hne). by apply Hth0.
      + exists T1. unfold th0. rewrite lookup_alter, lookup_insert. eexists. split; [done|]. split; done.
  Qed.
  (** The boxes of the original hang on the clone; those of the clone on the original. *)
  Lemma clone_ties n t T th' c : th !! t = Some T -> tclone tord n th t = Ok (th', c) ->
    c <> t /\ (forall k x, subs_of T !! k = Some x -> exists X, th' !! x = Some X /\ t_father X = Some c) /\
    ((forall k1 k2 x, subs_of T !! k1 = Some x -> subs_of T !! k2 = Some x -> k1 = k2) ->
     exists C, th' !! c = Some C /\ forall k y, subs_of C !! k = Some y -> exists Y, th' !! y = Some Y /\ t_father Y = Some t).
  Proof.
    intros HT H. destruct n as [|n]; [done|]. cbn [tclone] in H. rewrite HT in H. unfold talloc in H.
    pose proof (mirrors_start th Hclosed) as HM.
    destruct (mirrors_alloc th th id [] t (Tmpl (t_name T) (t_root T) None None) T HM HT eq_refl) as (HM0 & He0 & Hrc & Hc).
    set (c0 := fresh (dom th)) in *. set (rho0 := fun x => if decide (x = c0) then t else id x) in *.
    set (th0 := <[c0 := Tmpl (t_name T) (t_root T) None None]> th) in *.
    change (rho0 c0 = t) in Hrc. assert (Hct : c0 <> t) by congruence.
    destruct (t_subs T) as [m|] eqn:Hm.
    2:{ injection H as <- <-. split; [done|]. assert (Es : subs_of T = ∅) by (unfold subs_of; by rewrite Hm). split.
        - intros k x. by rewrite Es.
        - intros _. unfold th0. rewrite lookup_alter, lookup_insert. eexists. split; [done|]. cbn. intros k y. by rewrite lookup_empty. }
    apply obind_ok in H as ([th2' m2] & H & H'). injection H' as <- <-.
    assert (Em : subs_of T = m) by (unfold subs_of; by rewrite Hm).
    assert (Hc0 : is_Some (th0 !! c0)) by (unfold th0; rewrite lookup_insert; by eexists).
    assert (Hl : forall k x, (k, x) ∈ tord th m -> subs_of T !! k = Some x) by (intros k x Hin; rewrite Em; apply elem_of_map_to_list; by rewrite <- (Hord th m)).
    assert (Hl' : forall k x, subs_of T !! k = Some x -> (k, x) ∈ tord th m) by (intros k x Hin; rewrite (Hord th m); apply elem_of_map_to_list; by rewrite <- Em).
    assert (Hnd1 : NoDup (tord th m).*1) by (rewrite (Hord th m); apply NoDup_fst_map_to_list).
    destruct (clone_subs_spec th Hcons (tclone tord n) t T (tclone_clones tord th Hord Hcons n) HT (tord th m) th0 rho0 [c0] c0 ∅ th2' m2) as (rho2 & HM2 & He2 & Hm2 & Hd2); try done.
    { intros k. split; [done|]. intros Hk. rewrite lookup_empty. cbn. symmetry. destruct (subs_of T !! k) as [x|] eqn:E; [|done]. destruct Hk.
      apply elem_of_list_fmap. exists (k, x). split; [done|]. by apply Hl'. }
    destruct (loop_keeps (tclone tord n) t T (tclone_keeps n) (tclone_clones tord th Hord Hcons n) HT (tord th m) th0 rho0 [c0] c0 ∅ th2' m2) as (I1 & I2 & I3); try done.
    split; [done|]. split.
    - intros k x Hs. assert (Hf : father_of th2' x = Some c0) by (apply (I2 x k Hs); left; apply elem_of_list_fmap; exists (k, x); split; [done|by apply Hl']).
      unfold father_of in Hf. destruct (th2' !! x) as [X|] eqn:EX; [|done]. exists X. rewrite lookup_alter_ne; [done|]. intros ->.
      destruct (Hcons t T k x HT Hs) as (Z & HZ & _). congruence.
    - intros Hinj. rewrite lookup_alter. destruct (He2 c0 Hc0) as [[C2 HC2] _]. rewrite HC2. eexists. split; [done|]. cbn. intros k y Hy.
      assert (Hf : father_of th2' y = Some t).
      { apply (I3) with k; [|done| |done|done].
        - assert (Hg : forall l : list (bytes * loc), (forall k x, (k, x) ∈ l -> subs_of T !! k = Some x) -> NoDup l.*1 -> NoDup l.*2).
          { clear -Hinj. induction l as [|[k x] l IH]; intros Hl Hn; [constructor|]. cbn [fmap list_fmap] in *. apply NoDup_cons in Hn as [Hk Hn]. constructor.
            - intros ((k2 & x2) & Ex & Hin)%elem_of_list_fmap. cbn in Ex. subst x2. apply Hk. rewrite (Hinj k k2 x); [|apply Hl, elem_of_list_here|apply Hl; by apply elem_of_list_further].
              apply elem_of_list_fmap. by exists (k2, x).
            - apply IH; [|done]. intros. apply Hl. by apply elem_of_list_further. }
          apply Hg; done.
        - intros x ((k2 & x2) & -> & Hin)%elem_of_list_fmap. destruct (Hcons t T k2 x2 HT (Hl _ _ Hin)) as (X & HX & Hfx). unfold father_of, th0.
          cbn [snd]. rewrite lookup_insert_ne; [by rewrite HX|]. intros E2. rewrite <- E2 in HX. congruence. }
      unfold father_of in Hf. destruct (th2' !! y) as [Y|] eqn:EY; [|done]. destruct (decide (y = c0)) as [->|].
      + rewrite lookup_alter, HC2. eexists. split; [done|]. cbn. exfalso. pose proof (Hm2 k) as Hk2. rewrite Hy in Hk2. cbn in Hk2.
        destruct (He2 c0 Hc0) as [_ Er]. rewrite Er, Hrc in Hk2. apply (no_loop t), tc_once. by exists T, k.
      + exists Y. by rewrite lookup_alter_ne.
  Qed.
End Ties.
(** A lookup from a box goes through its Father. *)
Lemma visible_up th x X f name r : th !! x = Some X -> subs_of X !! name = None -> t_father X = Some f -> visible th x name r <-> visible th f name r.
Proof.
  intros HX Hs Hf. rewrite !get_template_visible. assert (Es : t_subs X ≫= (fun m => m !! name) = subs_of X !! name) by (unfold subs_of; by destruct (t_subs X)).
  split.
  - intros [[|k] Hk]; [done|]. cbn [get_template] in Hk. rewrite HX, Es, Hs, Hf in Hk. by exists k.
  - intros [k Hk]. exists (S k). cbn [get_template]. by rewrite HX, Es, Hs, Hf.
Qed.
(** AddTemplate on the original, after cloning: the boxes of the clone see it, those of the original do not. *)
Lemma clone_add tord th n t T th' c th2 tm name : any_order tord -> closed th -> consistent th -> rooted th ->
  th !! t = Some T -> t_father T = None -> subs_of T !! name = None ->
  (forall k1 k2 x, subs_of T !! k1 = Some x -> subs_of T !! k2 = Some x -> k1 = k2) ->
  tclone tord n th t = Ok (th', c) ->
  (forall z Z, th' !! z = Some Z -> th2 !! z = Some Z) -> th' !! tm = None ->
  (forall k x X, subs_of T !! k = Some x -> th !! x = Some X -> subs_of X !! name = None ->
     visible (add_template th t name tm) x name (Some tm) /\ visible (add_template th2 t name tm) x name None) /\
  (forall C k y Y, th' !! c = Some C -> subs_of C !! k = Some y -> th' !! y = Some Y -> subs_of Y !! name = None ->
     visible (add_template th2 t name tm) y name (Some tm)).
Proof.
  intros Ho Hc Hk Hr HT Hft Hnm Hinj H Hext Htm.
  destruct (clone_ties tord th Ho Hc Hk Hr n t T th' c HT H) as (Hct & Ho1 & Ho2). destruct (Ho2 Hinj) as (C & HC & Hb). clear Ho2.
  destruct (tclone_clones tord th Ho Hk n th id [] t th' c (mirrors_start th Hc) ltac:(by exists T) H) as (rho & (M1 & M2 & M3 & _) & He & _ & Hrc & Hfr).
  destruct (M3 t T HT) as (T' & HT' & HST).
  assert (Htmt : tm <> t) by congruence.
  assert (Htop : forall g, g !! t = Some T -> forall G, G = add_template g t name tm -> exists T3, G !! t = Some T3 /\ subs_of T3 !! name = Some tm).
  { intros g Hg G ->. unfold add_template. rewrite Hg. rewrite lookup_alter, lookup_alter_ne by done. rewrite Hg. eexists. split; [done|]. cbn. by rewrite lookup_insert. }
  assert (Hoth : forall g z, z <> t -> z <> tm -> add_template g t name tm !! z = g !! z).
  { intros g z H1 H2. unfold add_template. destruct (g !! t); [|done]. by rewrite lookup_alter_ne, lookup_alter_ne by done. }
  assert (Hsee : forall g z Z, g !! z = Some Z -> z <> t -> z <> tm -> is_Some (g !! t) -> t_father Z = Some t -> subs_of Z !! name = None ->
    visible (add_template g t name tm) z name (Some tm)).
  { intros g z Z HZ H1 H2 [Tg HTg] Hf Hs. eapply (visible_up _ z Z t); [by rewrite Hoth|done|done|].
    apply get_template_visible. exists 1%nat. cbn [get_template]. unfold add_template. rewrite HTg. rewrite lookup_alter, lookup_alter_ne by done. rewrite HTg. cbn. by rewrite lookup_insert. }
  assert (Hself : forall z, ~ below th z z).
  { intros z Hz. eapply (no_loop th Hc Hk Hr z). by apply tc_once. }
  split.
  - intros k x X Hs HX Hx. destruct (Hk t T k x HT Hs) as (X0 & HX0 & Hfx). assert (X0 = X) as -> by congruence.
    assert (Hxt : x <> t) by (intros ->; apply (Hself t); by exists T, k).
    destruct (M3 x X HX) as (X1 & HX1 & HSx). assert (Hxm : x <> tm) by congruence.
    split; [by apply (Hsee th x X); [done|done|done|by exists T|..]|].
    destruct (Ho1 k x Hs) as (X2 & HX2 & Hf2). assert (X2 = X1) as -> by congruence.
    assert (Hxc : x <> c) by congruence.
    eapply (visible_up _ x X1 c); [rewrite Hoth by done; by apply Hext|unfold subs_of in *; by rewrite HSx|done|].
    destruct (M2 c C HC) as (O & HO & _ & Hrest). rewrite Hrc, HT in HO. injection HO as <-. destruct Hrest as (S1 & S2 & _); [by intros Hin%elem_of_nil|].
    specialize (S1 name). rewrite Hnm in S1. rewrite Hft in S2.
    apply get_template_visible. exists 1%nat. cbn [get_template]. rewrite Hoth; [|done|congruence]. rewrite (Hext c C HC).
    assert (Es : t_subs C ≫= (fun m => m !! name) = subs_of C !! name) by (unfold subs_of; by destruct (t_subs C)). rewrite Es.
    destruct (subs_of C !! name); [done|]. by destruct (t_father C).
  - intros C' k y Y HC' Hs HY Hy. assert (C' = C) as -> by congruence. destruct (Hb k y Hs) as (Y' & HY' & Hfy). assert (Y' = Y) as -> by congruence.
    assert (Hym : y <> tm) by congruence.
    apply (Hsee th2 y Y); [by apply Hext| |done|exists T'; by apply Hext|done|done].
    intros ->. destruct (M2 t Y HY) as (O & HO & _ & Hrest). rewrite (M1 t) in HO by (by exists T). assert (O = T) as -> by congruence.
    destruct Hrest as (_ & S2 & _); [by intros Hin%elem_of_nil|]. rewrite Hfy, Hft in S2. done.
Qed.
