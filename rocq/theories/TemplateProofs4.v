(** * The second pass of the compiler: the tree of boxes. *)
From Verif Require Import GoBase GoStrings GoStringsProofs Regex DatasetModel TemplateModel TemplateSpec TemplateProofs TemplateProofs2 TemplateProofs3.

(** ** Layouts *)
Definition plain_token (t : token) : Prop := (forall n, t <> TOpen n) /\ t <> TClose.
Lemma layout_app i1 l1 i2 l2 : layout i1 l1 -> layout i2 l2 -> layout (i1 ++ i2) (l1 ++ l2).
Proof.
  intros H1 H2. induction H1 as [|t is l Ho Hc H IH|x nm body is l1 l1' Hb IHb H IH]; [done|by constructor|].
  cbn [app]. rewrite <- app_assoc. by apply lay_box.
Qed.
Lemma layout_balanced is l : layout is l -> forall d r, balanced d (l ++ r) <-> balanced d r.
Proof.
  induction 1 as [|t is l Ho Hc H IH|x nm body is l1 l2 Hb IHb H IH]; intros d r; [done| |].
  - cbn [app]. rewrite <- (IH d r). destruct t; try done. by destruct (Ho s).
  - cbn [app balanced]. rewrite <- app_assoc, IHb. cbn [app balanced]. apply IH.
Qed.
Lemma leaves_app a b : leaves (a ++ b) = leaves a ++ leaves b.
Proof. apply flat_map_app. Qed.
Definition blocs (is : list item) : list loc := flat_map box_locs is.
Lemma blocs_app a b : blocs (a ++ b) = blocs a ++ blocs b.
Proof. apply flat_map_app. Qed.
Lemma blocs_elem i is x : i ∈ is -> x ∈ box_locs i -> x ∈ blocs is.
Proof. intros Hi Hx. apply elem_of_list_In, in_flat_map. exists i. split; by apply elem_of_list_In. Qed.

Lemma box_ok_frame th th' t i : box_ok th t i -> (forall x, x ∈ box_locs i -> th' !! x = th !! x) -> box_ok th' t i.
Proof.
  induction 1 as [t k|t x nm body X HX Hn Hr Hs Hf Hb IH]; intros Hag; [constructor|].
  apply bo_box with X; try done; [rewrite Hag; [done|by left]|].
  intros i Hi. apply IH; [done|]. intros y Hy. apply Hag. right. by apply (blocs_elem i).
Qed.

(** ** Contents and contexts *)
Record content (th : theap) (a : loc) (old : gmap bytes loc) (mid : list param) (is : list item) (ts : list token) : Prop := {
  ct_live : filter (fun p => live p = true) mid = map stored (leaves is);
  ct_lay : layout is ts;
  ct_subs : exists A, th !! a = Some A /\ registers old is (t_subs A);
  ct_box : forall i, i ∈ is -> box_ok th a i }.
Lemma content_frame th th' a old mid is ts : content th a old mid is ts ->
  (forall x, x ∈ a :: blocs is -> th' !! x = th !! x) -> content th' a old mid is ts.
Proof.
  intros [H1 H2 (A & HA & Hr) H4] Hag. split; [done|done| |].
  - exists A. split; [rewrite Hag; [done|by left]|done].
  - intros i Hi. eapply box_ok_frame; [by apply H4|]. intros x Hx. apply Hag. right. by apply (blocs_elem i).
Qed.
Definition name_of (th : theap) (a : loc) : option bytes := t_name <$> th !! a.
Section Ctx.
  Context (t : loc) (old0 : gmap bytes loc).
  Inductive ctx (th : theap) : list nat -> list loc -> loc -> gmap bytes loc -> list param -> list token -> list loc -> Prop :=
  | ctx_root : ctx th [] [] t old0 [] [] []
  | ctx_box starts uppers up old pre ts ls mid is ts1 a nm :
      ctx th starts uppers up old pre ts ls -> content th up old mid is ts1 -> nm <> [] ->
      name_of th a = Some nm -> t_root <$> th !! a = Some None ->
      ctx th (length (pre ++ mid) :: starts) (up :: uppers) a ∅ (pre ++ mid ++ [Param MStart nm]) (ts ++ ts1 ++ [TOpen nm])
        (up :: blocs is ++ ls).
  Lemma ctx_frame th th' st up a old pre ts ls : ctx th st up a old pre ts ls ->
    (forall x, x ∈ ls -> th' !! x = th !! x) -> name_of th' a = name_of th a -> t_root <$> th' !! a = t_root <$> th !! a ->
    ctx th' st up a old pre ts ls.
  Proof.
    intros H. induction H as [|st uppers up old pre ts ls mid is ts1 a nm H IH Hc Hnm Hn Hr]; intros Hag Hna Hro; [constructor|].
    assert (Hup : th' !! up = th !! up) by (apply Hag; by left).
    apply ctx_box with old; [|eapply content_frame; [done|]|done|congruence|congruence].
    - apply IH; [|unfold name_of; by rewrite Hup|by rewrite Hup]. intros x Hx. apply Hag. right. apply elem_of_app. by right.
    - intros x [->|Hx]%elem_of_cons; [done|]. apply Hag. right. apply elem_of_app. by left.
  Qed.
  Lemma ctx_root_loc th st up a old pre ts ls : ctx th st up a old pre ts ls -> t ∈ a :: ls.
  Proof.
    induction 1 as [|st uppers up old pre ts ls mid is ts1 a nm H IH Hc Hnm Hn Hr]; [by left|].
    right. apply elem_of_cons in IH as [->|IH]; [by left|]. right. apply elem_of_app. by right.
  Qed.
  Lemma ctx_balanced th st up a old pre ts ls : ctx th st up a old pre ts ls ->
    forall r, balanced 0 (ts ++ r) <-> balanced (length st) r.
  Proof.
    induction 1 as [|st uppers up old pre ts ls mid is ts1 a nm H IH Hc Hnm Hn Hr]; intros r; [done|].
    rewrite <- !app_assoc, IH. rewrite (layout_balanced is ts1); [done|apply Hc].
  Qed.
End Ctx.

(** The state of the second pass after [done] words, [rest] to come. *)
Definition untouched (th0 th : theap) (t : loc) : Prop :=
  (forall y, y ∈ dom th0 -> y <> t -> th !! y = th0 !! y) /\
  (forall T, th0 !! t = Some T -> exists m, th !! t = Some (Tmpl (t_name T) (t_root T) m (t_father T))).
Record pass_ok (th0 : theap) (t : loc) (old0 : gmap bytes loc) (s : cstate) (i : nat) (dn rest : list token) : Prop := {
  po_untouched : untouched th0 (s_heap s) t;
  po_ctx : exists pre ts mid is ts1 old ls,
    ctx t old0 (s_heap s) (s_starts s) (s_uppers s) (s_actual s) old pre ts ls /\
    content (s_heap s) (s_actual s) old mid is ts1 /\
    dn = ts ++ ts1 /\ s_compiled s = pre ++ mid ++ map stored rest /\ i = length (pre ++ mid) /\
    NoDup (s_actual s :: blocs is ++ ls) /\
    (forall x, x ∈ s_actual s :: blocs is ++ ls -> x ∈ dom (s_heap s) /\ (x = t \/ x ∉ dom th0)) }.

Lemma pass_init th t T data : th !! t = Some T ->
  pass_ok th t (subs_of T) (CState [] [] t (map stored data) th) 0 [] data.
Proof.
  intros HT. split; [split; [done|]|].
  - intros T' HT'. exists (t_subs T'). cbn. rewrite HT'. by destruct T'.
  - exists [], [], [], [], [], (subs_of T), []. cbn. split; [constructor|]. split.
    + split; [done|constructor| |intros i Hi; by apply elem_of_nil in Hi].
      exists T. split; [done|]. unfold subs_of. destruct (t_subs T) as [m|].
      * apply registers_nil.
      * intros n. split; [|done]. intros x (a & nm & body & b & E & _). by destruct a.
    + split; [done|]. split; [done|]. split; [done|]. split; [apply NoDup_singleton|].
      intros x ->%elem_of_list_singleton. split; [by apply elem_of_dom_2 in HT|by left].
Qed.
Lemma stored_type tk : plain_token tk -> p_type (stored tk) <> MStart /\ p_type (stored tk) <> MEnd /\ live (stored tk) = true.
Proof. intros [Ho Hc]. destruct tk; try done; by destruct (Ho s). Qed.
Lemma compiled_at {A} (l1 l2 : list A) x r : (l1 ++ l2 ++ x :: r) !! length (l1 ++ l2) = Some x.
Proof. rewrite app_assoc. by rewrite list_lookup_middle. Qed.

Lemma pass_plain th0 t old0 s i dn tk rest : plain_token tk -> pass_ok th0 t old0 s i dn (tk :: rest) ->
  second_step i s = Some s /\ pass_ok th0 t old0 s (S i) (dn ++ [tk]) rest.
Proof.
  intros Hp [Hu (pre & ts & mid & is & ts1 & old & ls & Hctx & Hct & -> & Hc & -> & Hnd & Hdom)].
  destruct (stored_type tk Hp) as (Hs & He & Hl).
  split.
  - unfold second_step. rewrite Hc. cbn [map]. rewrite compiled_at.
    rewrite bool_decide_eq_false_2, bool_decide_eq_false_2 by done. done.
  - split; [done|]. exists pre, ts, (mid ++ [stored tk]), (is ++ [Leaf tk]), (ts1 ++ [tk]), old, ls.
    split; [done|]. split; [|split; [by rewrite app_assoc|split; [|split; [|split]]]].
    + destruct Hct as [H1 H2 (A & HA & Hr) H4]. split.
      * rewrite filter_app, H1, leaves_app, map_app. f_equal. rewrite filter_cons_True by done. done.
      * apply layout_app; [done|]. destruct Hp. constructor; [done|done|constructor].
      * exists A. split; [done|]. by apply registers_leaf.
      * intros j [Hj|Hj]%elem_of_app; [by apply H4|]. apply elem_of_list_singleton in Hj as ->. constructor.
    + rewrite Hc. cbn [map]. by rewrite <- !app_assoc.
    + rewrite !app_length. cbn. lia.
    + by rewrite blocs_app, app_nil_r.
    + by rewrite blocs_app, app_nil_r.
Qed.

Lemma pass_open th0 t old0 s i dn nm rest : nm <> [] -> pass_ok th0 t old0 s i dn (TOpen nm :: rest) -> t ∈ dom th0 ->
  exists s', second_step i s = Some s' /\ pass_ok th0 t old0 s' (S i) (dn ++ [TOpen nm]) rest.
Proof.
  intros Hnm [Hu (pre & ts & mid & is & ts1 & old & ls & Hctx & Hct & -> & Hc & -> & Hnd & Hdom)] Ht0.
  unfold second_step. rewrite Hc. cbn [map]. rewrite compiled_at.
  rewrite bool_decide_eq_true_2 by done. cbn [talloc stored p_data].
  set (a := fresh (dom (s_heap s))). assert (Ha : a ∉ dom (s_heap s)) by apply is_fresh.
  set (th1 := <[a := Tmpl nm None None None]> (s_heap s)).
  assert (Hag : forall x, x ∈ dom (s_heap s) -> th1 !! x = s_heap s !! x).
  { intros x Hx. unfold th1. rewrite lookup_insert_ne; [done|]. intros ->. done. }
  assert (Hin : forall x, x ∈ s_actual s :: blocs is ++ ls -> th1 !! x = s_heap s !! x).
  { intros x Hx. apply Hag. by apply Hdom. }
  assert (Ht : t ∈ dom (s_heap s)).
  { destruct Hu as [_ Hu]. apply elem_of_dom in Ht0 as [T HT]. destruct (Hu T HT) as [m Hm]. by apply elem_of_dom_2 in Hm. }
  assert (Hsub : forall y, y ∈ dom th0 -> y ∈ dom (s_heap s)).
  { intros y Hy. destruct (decide (y = t)) as [->|Hne]; [done|]. apply elem_of_dom. rewrite (proj1 Hu) by done. by apply elem_of_dom. }
  eexists. split; [reflexivity|]. split; cbn [s_heap s_starts s_uppers s_actual s_compiled].
  - destruct Hu as [Hu1 Hu2]. split.
    + intros y Hy Hne. rewrite Hag; [by apply Hu1|by apply Hsub].
    + intros T HT. rewrite Hag by done. by apply Hu2.
  - exists (pre ++ mid ++ [Param MStart nm]), (ts ++ ts1 ++ [TOpen nm]), [], [], [], ∅, (s_actual s :: blocs is ++ ls).
    split; [|split; [|split; [|split; [|split; [|split]]]]].
    + apply ctx_box with (old := old).
      * eapply ctx_frame; [done| |unfold name_of; rewrite Hin; [done|by left]|rewrite Hin; [done|by left]].
        intros x Hx. apply Hin. right. apply elem_of_app. by right.
      * eapply content_frame; [done|]. intros x [->|Hx]%elem_of_cons; [apply Hin; by left|].
        apply Hin. right. apply elem_of_app. by left.
      * done.
      * unfold name_of, th1. by rewrite lookup_insert.
      * unfold th1. by rewrite lookup_insert.
    + split; [done|constructor| |intros j Hj; by apply elem_of_nil in Hj].
      eexists. split; [unfold th1; by rewrite lookup_insert|]. cbn. intros n. split; [|done].
      intros x (b & ? & ? & ? & E & _). by destruct b.
    + by rewrite app_nil_r, <- !app_assoc.
    + by rewrite <- !app_assoc.
    + rewrite app_nil_r, !app_length. cbn. lia.
    + cbn [blocs flat_map app]. apply NoDup_cons. split; [|done]. intros Hx. apply Ha. by apply Hdom.
    + cbn [blocs flat_map app]. intros x [->|Hx]%elem_of_cons.
      * split; [unfold th1; rewrite dom_insert_L; set_solver|]. right. intros Hx. by apply Ha, Hsub.
      * destruct (Hdom x Hx) as [H1 H2]. split; [|done]. unfold th1. rewrite dom_insert_L. set_solver.
Qed.

Lemma filter_unused l : filter (fun p => live p = true) (map unused l) = [].
Proof. induction l as [|p l IH]; [done|]. cbn [map]. rewrite filter_cons_False by done. done. Qed.

Lemma pass_close th0 t old0 s i dn rest : t ∈ dom th0 -> pass_ok th0 t old0 s i dn (TClose :: rest) ->
  match s_starts s with
  | [] => second_step i s = None
  | _ => exists s', second_step i s = Some s' /\ pass_ok th0 t old0 s' (S i) (dn ++ [TClose]) rest
  end.
Proof.
  intros Ht0 [Hu (pre & ts & mid & is & ts1 & old & ls & Hctx & Hct & -> & Hc & -> & Hnd & Hdom)].
  destruct s as [sts ups a c th]. cbn [s_starts s_uppers s_actual s_compiled s_heap] in *. subst c.
  destruct Hctx as [|sts ups up old pre ts ls mid0 is0 ts0 a nm Hctx Hct0 Hnm Hna Hro].
  - unfold second_step. cbn [s_compiled map]. rewrite compiled_at. done.
  - unfold second_step. cbn [s_compiled s_starts s_uppers s_heap s_actual map]. rewrite compiled_at.
    rewrite bool_decide_eq_false_2 by done. rewrite bool_decide_eq_true_2 by done.
    set (sp := length (pre ++ mid0)).
    destruct Hct as [H1 H2 (A & HA & Hr) H4].
    destruct Hct0 as [G1 G2 (U & HU & Gr) G4].
    unfold name_of in Hna. rewrite HA in Hna, Hro. cbn in Hna, Hro. injection Hna as Hna. injection Hro as Hro.
    assert (Hne : up <> a).
    { intros ->. apply NoDup_cons in Hnd as [Hnd _]. apply Hnd. apply elem_of_app. right. by left. }
    rewrite HA.
    assert (Hinner : take (length ((pre ++ mid0 ++ [Param MStart nm]) ++ mid) - S sp)
              (drop (S sp) ((pre ++ mid0 ++ [Param MStart nm]) ++ mid ++ stored TClose :: map stored rest)) = mid).
    { replace (S sp) with (length (pre ++ mid0 ++ [Param MStart nm])) by (unfold sp; rewrite !app_length; cbn; lia).
      rewrite drop_app, app_length.
      replace (_ + length mid - _)%nat with (length mid) by lia. by rewrite take_app. }
    rewrite Hinner, H1.
    set (th1 := alter (fun T => Tmpl (t_name T) (Some (map stored (leaves is))) (t_subs T) (t_father T)) a th).
    destruct (register_lookup th1 up (t_name A) a U (Tmpl (t_name A) (Some (map stored (leaves is))) (t_subs A) (t_father A)))
      as (fa & Hreg & Hfa).
    { unfold th1. by rewrite lookup_alter_ne. }
    { unfold th1. by rewrite lookup_alter, HA. }
    { done. }
    { by rewrite Hna. }
    cbn [t_name t_root t_subs] in Hreg.
    eexists. split; [reflexivity|]. rewrite Hreg, Hna.
    set (A' := Tmpl nm (Some (map stored (leaves is))) (t_subs A) fa).
    set (U' := Tmpl (t_name U) (t_root U) (add_names a (split_on "|"%char nm) (t_subs U)) (t_father U)).
    set (th2 := <[up := U']> (<[a := A']> th1)).
    assert (Hupl : th2 !! up = Some U') by (unfold th2; by rewrite lookup_insert).
    assert (Hal : th2 !! a = Some A') by (unfold th2; rewrite lookup_insert_ne by done; by rewrite lookup_insert).
    assert (Hag : forall x, x <> up -> x <> a -> th2 !! x = th !! x).
    { intros x X1 X2. unfold th2, th1. rewrite !lookup_insert_ne by done. by rewrite lookup_alter_ne. }
    apply NoDup_cons in Hnd as [Hanot Hnd].
    assert (Hanot0 := Hanot).
    apply NoDup_app in Hnd as (Hnd1 & Hdis & Hnd2). apply NoDup_cons in Hnd2 as [Hupnot Hnd2].
    assert (Hat : a <> t).
    { intros ->. apply Hanot. apply elem_of_app. right. apply ctx_root_loc in Hctx.
      apply elem_of_cons in Hctx as [->|Hx]; [by left|]. right. apply elem_of_app. by right. }
    assert (Hdomth : forall x, x ∈ dom th -> x ∈ dom th2).
    { intros x Hx. destruct (decide (x = up)) as [->|X1]; [by apply elem_of_dom_2 in Hupl|].
      destruct (decide (x = a)) as [->|X2]; [by apply elem_of_dom_2 in Hal|].
      apply elem_of_dom. rewrite Hag by done. by apply elem_of_dom. }
    assert (Hdup : up = t \/ up ∉ dom th0).
    { apply Hdom. right. apply elem_of_app. right. by left. }
    assert (Hda : a ∉ dom th0).
    { destruct (Hdom a) as [_ [E|E]]; [by left|done|done]. }
    split; cbn [s_heap s_starts s_uppers s_actual s_compiled].
    + destruct Hu as [Hu1 Hu2]. split.
      * intros y Hy Hyt. rewrite Hag; [by apply Hu1| |]; [intros ->; by destruct Hdup|intros ->; done].
      * intros T HT. destruct (Hu2 T HT) as [m Hm]. destruct (decide (up = t)) as [->|Hupt].
        -- rewrite HU in Hm. injection Hm as ->. rewrite Hupl. eexists. reflexivity.
        -- rewrite Hag by congruence. by exists m.
    + exists pre, ts, (mid0 ++ map unused (Param MStart nm :: mid) ++ [unused (stored TClose)]), (is0 ++ [Box a nm is]),
        (ts0 ++ TOpen nm :: ts1 ++ [TClose]), old, ls.
      assert (Hfr : forall x, x ∈ ls -> x <> up /\ x <> a).
      { intros x Hx. split; intros ->.
        - apply Hupnot. apply elem_of_app. by right.
        - apply Hanot. apply elem_of_app. right. right. apply elem_of_app. by right. }
      assert (Hfr0 : forall x, x ∈ blocs is0 -> x <> up /\ x <> a).
      { intros x Hx. split; intros ->.
        - apply Hupnot. apply elem_of_app. by left.
        - apply Hanot. apply elem_of_app. right. right. apply elem_of_app. by left. }
      assert (Hfr1 : forall x, x ∈ blocs is -> x <> up /\ x <> a).
      { intros x Hx. split; intros ->.
        - apply (Hdis up Hx). by left.
        - apply Hanot. apply elem_of_app. by left. }
      assert (Hbody : forall j, j ∈ is -> box_ok th2 a j).
      { intros j Hj. eapply box_ok_frame; [by apply H4|]. intros x Hx.
        destruct (Hfr1 x) as [? ?]; [by apply (blocs_elem j)|]. by apply Hag. }
      split; [|split; [|split; [|split; [|split; [|split]]]]].
      * eapply ctx_frame; [done| | |].
        -- intros x Hx. destruct (Hfr x Hx). by apply Hag.
        -- unfold name_of. by rewrite Hupl, HU.
        -- by rewrite Hupl, HU.
      * split.
        -- rewrite !filter_app, filter_unused, G1, leaves_app, map_app. done.
        -- apply layout_app; [done|]. apply (lay_box a nm is [] ts1 []); [done|constructor].
        -- exists U'. split; [done|]. cbn. by apply registers_box.
        -- intros j [Hj|Hj]%elem_of_app.
           ++ eapply box_ok_frame; [by apply G4|]. intros x Hx. destruct (Hfr0 x) as [? ?]; [by apply (blocs_elem j)|]. by apply Hag.
           ++ apply elem_of_list_singleton in Hj as ->. apply bo_box with A'; try done.
              intros Hp. cbn. apply Hfa. by rewrite Hna.
      * rewrite <- !app_assoc. done.
      * unfold sp.
        assert (Et : take (length (pre ++ mid0)) ((pre ++ mid0 ++ [Param MStart nm]) ++ mid ++ stored TClose :: map stored rest) = pre ++ mid0).
        { replace ((pre ++ mid0 ++ [Param MStart nm]) ++ mid ++ stored TClose :: map stored rest)
            with ((pre ++ mid0) ++ [Param MStart nm] ++ mid ++ stored TClose :: map stored rest) by (by rewrite <- !app_assoc).
          by rewrite take_app. }
        assert (Ed : drop (length (pre ++ mid0)) ((pre ++ mid0 ++ [Param MStart nm]) ++ mid ++ stored TClose :: map stored rest)
                     = ([Param MStart nm] ++ mid) ++ stored TClose :: map stored rest).
        { replace ((pre ++ mid0 ++ [Param MStart nm]) ++ mid ++ stored TClose :: map stored rest)
            with ((pre ++ mid0) ++ ([Param MStart nm] ++ mid) ++ stored TClose :: map stored rest) by (by rewrite <- !app_assoc).
          by rewrite drop_app. }
        rewrite Et, Ed.
        replace (length ((pre ++ mid0 ++ [Param MStart nm]) ++ mid) - length (pre ++ mid0))%nat with (length ([Param MStart nm] ++ mid))
          by (rewrite !app_length; cbn; lia).
        rewrite take_app.
        replace (S (length ((pre ++ mid0 ++ [Param MStart nm]) ++ mid))) with (length (((pre ++ mid0 ++ [Param MStart nm]) ++ mid) ++ [stored TClose]))
          by (rewrite !app_length; cbn; lia).
        replace ((pre ++ mid0 ++ [Param MStart nm]) ++ mid ++ stored TClose :: map stored rest)
          with ((((pre ++ mid0 ++ [Param MStart nm]) ++ mid) ++ [stored TClose]) ++ map stored rest) by (by rewrite <- !app_assoc).
        rewrite drop_app. rewrite <- !app_assoc. done.
      * unfold sp. rewrite !app_length, map_length. cbn [length]. lia.
      * rewrite blocs_app. cbn [blocs flat_map box_locs]. rewrite app_nil_r.
        change (flat_map box_locs is) with (blocs is). change (flat_map box_locs is0) with (blocs is0).
        assert (P : up :: (blocs is0 ++ a :: blocs is) ++ ls ≡ₚ a :: blocs is ++ up :: blocs is0 ++ ls) by solve_Permutation.
        rewrite P. apply NoDup_cons. split; [done|]. apply NoDup_app. split; [done|]. split; [done|]. by apply NoDup_cons.
      * rewrite blocs_app. cbn [blocs flat_map box_locs]. rewrite app_nil_r.
        change (flat_map box_locs is) with (blocs is). change (flat_map box_locs is0) with (blocs is0).
        intros x Hx. assert (Hx' : x ∈ a :: blocs is ++ up :: blocs is0 ++ ls).
        { revert Hx. rewrite !elem_of_cons, !elem_of_app, !elem_of_cons, !elem_of_app. tauto. }
        destruct (Hdom x Hx'). split; [by apply Hdomth|done].
Qed.

(** ** The whole pass *)
Definition sensible (tk : token) : Prop := tk <> TOpen [].
Lemma reads_sensible s l : reads s l -> Forall sensible l.
Proof.
  induction 1 as [|s tk r l Hs H IH|a s l Ha Hn He H IH]; [constructor| |by constructor].
  constructor; [|done]. intros ->. inversion Hs; subst; done.
Qed.
Lemma plain_or tk : plain_token tk \/ (exists nm, tk = TOpen nm) \/ tk = TClose.
Proof. destruct tk; eauto; left; done. Qed.
Lemma pass_all th0 t old0 rest : t ∈ dom th0 -> Forall sensible rest -> forall s i dn, pass_ok th0 t old0 s i dn rest ->
  let '(s', ok) := second_pass (length rest) i s in
  if ok then exists i', pass_ok th0 t old0 s' i' (dn ++ rest) []
  else ~ balanced 0 (dn ++ rest) /\ untouched th0 (s_heap s') t.
Proof.
  intros Ht. induction rest as [|tk rest IH]; intros Hs s i dn Hp.
  - cbn. rewrite app_nil_r. by exists i.
  - inversion Hs as [|? ? Htk Hs']; subst. cbn [length second_pass].
    assert (E : dn ++ tk :: rest = (dn ++ [tk]) ++ rest) by (by rewrite <- app_assoc).
    destruct (plain_or tk) as [Hpl|[[nm ->]| ->]].
    + destruct (pass_plain _ _ _ _ _ _ _ _ Hpl Hp) as [-> Hp']. rewrite E. by apply IH.
    + assert (Hnm : nm <> []) by (intros ->; done).
      destruct (pass_open _ _ _ _ _ _ _ _ Hnm Hp Ht) as (s' & -> & Hp'). rewrite E. by apply IH.
    + pose proof (pass_close _ _ _ _ _ _ _ Ht Hp) as Hcl. destruct (s_starts s) eqn:Est.
      * rewrite Hcl. destruct Hp as [Hu (pre & ts & mid & is & ts1 & old & ls & Hctx & Hct & -> & _)]. split; [|done].
        rewrite <- app_assoc, (ctx_balanced _ _ _ _ _ _ _ _ _ _ Hctx), Est, (layout_balanced is ts1) by apply Hct. cbn. tauto.
      * destruct Hcl as (s' & -> & Hp'). rewrite E. by apply IH.
Qed.
(** [compile] after its first pass. *)
Definition compile_list (th : theap) (t : loc) (ps : list param) : theap * bool :=
  let '(s, ok) := second_pass (length ps) 0 (CState [] [] t ps th) in
  if ok then
    match s_starts s with
    | [] => (alter (fun T => Tmpl (t_name T) (Some (filter (fun p => live p = true) (s_compiled s))) (t_subs T) (t_father T)) t (s_heap s), true)
    | _ => (s_heap s, false)
    end
  else (s_heap s, false).
Lemma compile_compile_list th t data : compile th t data = compile_list th t (first_pass data).
Proof. reflexivity. Qed.
(** What it does to the templates, in both cases. *)
Lemma compile_list_spec th t T toks : th !! t = Some T -> Forall sensible toks ->
  let '(th', ok) := compile_list th t (map stored toks) in
  (forall y, y ∈ dom th -> y <> t -> th' !! y = th !! y) /\
  if ok then
    balanced 0 toks /\ exists is, layout is toks /\ loaded th' (subs_of T) t is /\
      NoDup (blocs is) /\ (forall x, x ∈ blocs is -> x ∉ dom th) /\
      exists T', th' !! t = Some T' /\ t_name T' = t_name T /\ t_father T' = t_father T
  else ~ balanced 0 toks /\ exists m, th' !! t = Some (Tmpl (t_name T) (t_root T) m (t_father T)).
Proof.
  intros HT Hr. unfold compile_list. rewrite map_length.
  assert (Ht : t ∈ dom th) by (by apply elem_of_dom_2 in HT).
  pose proof (pass_all th t (subs_of T) toks Ht Hr _ _ _ (pass_init th t T toks HT)) as H.
  destruct (second_pass _ _ _) as [s ok]. cbn [app] in H. destruct ok.
  - destruct H as [i' [Hu (pre & ts & mid & is & ts1 & old & ls & Hctx & Hct & E & Hc & Hi & Hnd & Hdom)]].
    destruct s as [sts ups a c th']. cbn [s_starts s_uppers s_actual s_compiled s_heap] in *.
    pose proof (ctx_balanced _ _ _ _ _ _ _ _ _ _ Hctx ts1) as Hb. rewrite <- E in Hb.
    assert (Hb' : balanced (length sts) ts1 <-> balanced (length sts) []).
    { rewrite <- (app_nil_r ts1) at 1. apply layout_balanced with is. apply Hct. }
    destruct Hctx as [|sts ups up old pre ts ls mid0 is0 ts0 a nm Hctx Hct0 Hnm Hna Hro].
    + destruct Hu as [Hu1 Hu2]. destruct (Hu2 T HT) as [m Hm]. cbn [app map] in *. rewrite app_nil_r in Hc. subst c toks.
      apply NoDup_cons in Hnd as [Hnt Hnd]. rewrite app_nil_r in Hnt, Hnd.
      assert (Hag : forall y, y <> t -> alter (fun T0 => Tmpl (t_name T0) (Some (filter (fun p => live p = true) mid)) (t_subs T0) (t_father T0)) t th' !! y = th' !! y).
      { intros y Hy. by rewrite lookup_alter_ne. }
      split; [intros y Hy Hyt; rewrite Hag by done; by apply Hu1|].
      split; [apply Hb, Hb'; done|]. destruct Hct as [H1 H2 (A & HA & Hreg) H4].
      exists is. split; [done|]. split; [|split; [done|split]].
      * eexists. split; [by rewrite lookup_alter, HA|]. cbn. split; [by rewrite H1|]. split; [done|].
        intros j Hj. eapply box_ok_frame; [by apply H4|]. intros x Hx. apply Hag. intros ->. apply Hnt. by apply (blocs_elem j).
      * intros x Hx. destruct (Hdom x) as [_ [->|?]]; [right; by rewrite app_nil_r|done|done].
      * eexists. split; [by rewrite lookup_alter, Hm|]. done.
    + split; [apply Hu|]. split; [|by apply Hu]. rewrite Hb, Hb'. done.
  - destruct H as [Hb Hu]. split; [apply Hu|]. split; [done|]. by apply Hu.
Qed.
Lemma compile_spec th t T data toks : th !! t = Some T -> reads data toks ->
  let '(th', ok) := compile th t data in
  (forall y, y ∈ dom th -> y <> t -> th' !! y = th !! y) /\
  if ok then
    balanced 0 toks /\ exists is, layout is toks /\ loaded th' (subs_of T) t is /\
      NoDup (blocs is) /\ (forall x, x ∈ blocs is -> x ∉ dom th) /\
      exists T', th' !! t = Some T' /\ t_name T' = t_name T /\ t_father T' = t_father T
  else ~ balanced 0 toks /\ exists m, th' !! t = Some (Tmpl (t_name T) (t_root T) m (t_father T)).
Proof.
  intros HT Hr. rewrite compile_compile_list, (proj1 (first_pass_iff data toks) Hr). apply compile_list_spec; [done|]. by eapply reads_sensible.
Qed.
