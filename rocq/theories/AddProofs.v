(** * AddTemplate: what it changes, cycles of fathers, a template with two parents. *)
From Verif Require Import GoBase GoStrings GoStringsProofs DatasetModel LangModel TemplateModel TemplateSpec TemplateProofs5.


Lemma add_template_other th t name tm y : y <> t -> y <> tm -> add_template th t name tm !! y = th !! y.
Proof. intros H1 H2. unfold add_template. destruct (th !! t); [|done]. by rewrite !lookup_alter_ne by congruence. Qed.
Lemma add_template_at th t name tm T M : th !! t = Some T -> th !! tm = Some M -> t <> tm ->
  add_template th t name tm !! t = Some (Tmpl (t_name T) (t_root T) (Some (<[name := tm]> (subs_of T))) (t_father T)) /\
  add_template th t name tm !! tm = Some (Tmpl (t_name M) (t_root M) (t_subs M) (Some t)).
Proof.
  intros HT HM Hne. unfold add_template. rewrite HT. split.
  - rewrite lookup_alter, lookup_alter_ne by congruence. rewrite HT. done.
  - rewrite lookup_alter_ne by congruence. rewrite lookup_alter, HM. done.
Qed.
Lemma add_template_self th t name T : th !! t = Some T ->
  add_template th t name t !! t = Some (Tmpl (t_name T) (t_root T) (Some (<[name := t]> (subs_of T))) (Some t)).
Proof. intros HT. unfold add_template. rewrite HT, !lookup_alter, HT. done. Qed.

Lemma add_template_visible th t name tm T M : th !! t = Some T -> th !! tm = Some M -> t <> tm ->
  let th' := add_template th t name tm in
  visible th' t name (Some tm) /\
  (forall n r, subs_of M !! n = None -> visible th' tm n r <-> visible th' t n r) /\
  (forall n x, subs_of M !! n = Some x -> visible th' tm n (Some x)) /\
  (forall n x, n <> name -> subs_of T !! n = Some x -> visible th' t n (Some x)) /\
  (forall y, y <> t -> y <> tm -> th' !! y = th !! y).
Proof.
  intros HT HM Hne th'. destruct (add_template_at th t name tm T M HT HM Hne) as [E1 E2]. fold th' in E1, E2.
  split_and!.
  - eapply vis_here; [exact E1|]. unfold subs_of at 1; simpl. apply lookup_insert.
  - intros n r Hn. split.
    + intros H. inversion H as [? ? ? ? E Hs|? ? ? ? ? E Hs Hf Hv|? ? ? E Hs Hf]; subst; rewrite E2 in E; injection E as <-.
      * change (subs_of M !! n = Some x) in Hs. congruence.
      * simpl in Hf. by injection Hf as <-.
      * discriminate Hf.
    + intros H. eapply vis_up; [exact E2|exact Hn|reflexivity|done].
  - intros n x Hn. eapply vis_here; [exact E2|exact Hn].
  - intros n x Hn Hx. eapply vis_here; [exact E1|]. unfold subs_of at 1; simpl. by rewrite lookup_insert_ne.
  - intros y H1 H2. by apply add_template_other.
Qed.

Lemma no_end_step th t f name T : th !! t = Some T -> t_father T = Some f -> no_end th t name -> no_end th f name.
Proof. intros HT Hf H x Hx. apply H. eapply rtc_l; [|exact Hx]. by exists T. Qed.
Lemma endless_lookup th t name : (forall k, get_template k th t name = NoFuel) <-> no_end th t name.
Proof.
  split.
  - intros H x Hx. revert H. induction Hx as [t|t f x (T & HT & Hf) Hx IH]; intros H.
    + pose proof (H 1%nat) as H1. pose proof (fun k => H (S k)) as H2. cbn in H1. cbn in H2.
      destruct (th !! t) as [T|]; [|discriminate H1]. rewrite subs_lookup in H1.
      destruct (subs_of T !! name) eqn:E; [discriminate H1|]. destruct (t_father T) as [f|] eqn:Ef; [|discriminate H1].
      by exists T, f.
    + apply IH. intros k. pose proof (H (S k)) as H1. pose proof (H 1%nat) as H2. cbn in H1, H2. rewrite HT, subs_lookup in H1, H2.
      destruct (subs_of T !! name) eqn:E; [discriminate H2|]. by rewrite Hf in H1.
  - intros H k. revert t H. induction k as [|k IH]; intros t H; [done|]. cbn.
    destruct (H t (rtc_refl _ _)) as (T & f & HT & Hn & Hf). rewrite HT, subs_lookup, Hn, Hf. apply IH. by eapply no_end_step.
Qed.
Lemma self_added th t n name T : th !! t = Some T -> name <> n -> subs_of T !! name = None ->
  forall k, get_template k (add_template th t n t) t name = NoFuel.
Proof.
  intros HT Hn Hs. apply endless_lookup. intros x Hx. pose proof (add_template_self th t n T HT) as E.
  assert (x = t) as ->.
  { revert Hx. apply (rtc_ind_r (fun x => x = t)); [done|]. intros y z _ (Y & HY & Hf) ->. rewrite E in HY. injection HY as <-. simpl in Hf. congruence. }
  eexists _, t. split; [exact E|]. unfold subs_of at 1; simpl. by rewrite lookup_insert_ne.
Qed.
(** A template added below one of its own descendants. *)
Lemma ancestor_added th t n tm name T M : th !! t = Some T -> th !! tm = Some M -> t <> tm ->
  rtc (fathered th) t tm -> name <> n ->
  (forall x, rtc (fathered th) t x -> exists X, th !! x = Some X /\ subs_of X !! name = None) ->
  forall k, get_template k (add_template th t n tm) tm name = NoFuel.
Proof.
  intros HT HM Hne Hr Hn Hs. apply endless_lookup.
  destruct (add_template_at th t n tm T M HT HM Hne) as [E1 E2]. set (th' := add_template th t n tm) in *.
  (* every template on the way was on the way from t to tm *)
  assert (G : forall x, rtc (fathered th') tm x -> rtc (fathered th) t x /\ rtc (fathered th) x tm).
  { apply (rtc_ind_r (fun x => rtc (fathered th) t x /\ rtc (fathered th) x tm)); [by split|].
    intros y z _ (Y & HY & Hf) [I1 I2]. destruct (decide (y = tm)) as [->|N1].
    - rewrite E2 in HY. injection HY as <-. simpl in Hf. injection Hf as <-. by split.
    - assert (HfY : exists Y0, th !! y = Some Y0 /\ t_father Y0 = Some z).
      { destruct (decide (y = t)) as [->|N2].
        - rewrite E1 in HY. injection HY as <-. simpl in Hf. by exists T.
        - unfold th' in HY. rewrite add_template_other in HY by done. by exists Y. }
      split; [eapply rtc_r; [exact I1|exact HfY]|].
      inversion I2 as [|? w ? (W & HW & Hfw) Hw]; subst; [done|]. destruct HfY as (Y0 & HY0 & Hf0).
      replace z with w by congruence. done. }
  intros x Hx. destruct (G x Hx) as [G1 G2]. destruct (Hs x G1) as (X & HX & HXn).
  destruct (decide (x = tm)) as [->|N1].
  - eexists _, t. split; [exact E2|]. split; [|done]. rewrite HM in HX. injection HX as <-. exact HXn.
  - inversion G2 as [|? w ? (W & HW & Hfw) Hw]; subst; [done|]. rewrite HX in HW. injection HW as <-.
    destruct (decide (x = t)) as [->|N2].
    + eexists _, w. split; [exact E1|]. rewrite HT in HX. injection HX as <-. split; [|done].
      unfold subs_of at 1; simpl. by rewrite lookup_insert_ne.
    + eexists X, w. unfold th'. rewrite add_template_other by done. done.
Qed.
(** An element that refers to an unknown template keeps Execute from returning. *)
Lemma self_added_executes F ord langs th t n T name rest h : th !! t = Some T -> name <> n -> subs_of T !! name = None ->
  t_root T = Some (Param 3 name :: rest) -> ":"%char ∉ name ->
  forall k, execute F ord langs (add_template th t n t) k h t None = NoFuel.
Proof.
  intros HT Hn Hs Hr Hc k. unfold execute. destruct k as [|k]; [done|]. cbn [injector].
  rewrite (add_template_self th t n T HT). cbn [t_root]. rewrite Hr. cbn [do_params].
  set (th' := add_template th t n t). unfold do_param. cbn [p_data p_type].
  rewrite !bool_decide_false by done. rewrite bool_decide_true by done. rewrite split_on_none by done.
  cbn [do_reference]. unfold lookup_template, th'. rewrite (self_added th t n name T HT Hn Hs). done.
Qed.
(** A second parent takes the template away from the first. *)
Lemma second_parent th t1 t2 x T1 T2 X n1 n2 : th !! t1 = Some T1 -> th !! t2 = Some T2 -> th !! x = Some X ->
  t1 <> t2 -> x <> t1 -> x <> t2 ->
  let th' := add_template (add_template th t1 n1 x) t2 n2 x in
  visible th' t1 n1 (Some x) /\ visible th' t2 n2 (Some x) /\
  (forall name r, subs_of X !! name = None -> visible th' x name r <-> visible th' t2 name r) /\
  (forall name y, subs_of T2 !! name = Some y -> name <> n2 -> visible th' t2 name (Some y)).
Proof.
  intros H1 H2 HX N12 N1 N2 th'.
  destruct (add_template_at th t1 n1 x T1 X H1 HX ltac:(congruence)) as [E1 Ex].
  assert (E2 : add_template th t1 n1 x !! t2 = Some T2) by (by rewrite add_template_other by congruence).
  pose proof (add_template_visible _ t2 n2 x _ _ E2 Ex ltac:(congruence)) as (V1 & V2 & V3 & V4 & V5). fold th' in V1, V2, V3, V4, V5.
  split_and!; [|done|exact V2|].
  - eapply vis_here; [rewrite V5 by congruence; exact E1|]. unfold subs_of at 1; simpl. apply lookup_insert.
  - intros name y Hy Hne. by apply V4.
Qed.
(** The first parent renders differently once the template was added to another one. *)
Lemma two_parents : exists data1 data2 datax, forall F ord langs h,
  match new_template ∅ data1 with
  | (th1, Some t1) =>
      match new_template th1 data2 with
      | (th2, Some t2) =>
          match new_template th2 datax with
          | (th3, Some x) =>
              let th4 := add_template th3 t1 (B "x") x in let th5 := add_template th4 t2 (B "x") x in
              execute F ord langs th4 9 h t1 None = Ok (h, B "one") /\ execute F ord langs th5 9 h t1 None = Ok (h, B "two")
          | _ => False
          end
      | _ => False
      end
  | _ => False
  end.
Proof.
  exists (B "&&x&&[[y]]one[[]]"), (B "&&x&&[[y]]two[[]]"), (B "&&y&&"). intros F ord langs h. vm_compute. split; reflexivity.
Qed.
