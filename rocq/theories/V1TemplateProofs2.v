(** * Version 1: loading a text. *)
From Verif Require Import GoBase GoStrings GoStringsProofs Regex DatasetModel TemplateModel TemplateSpec
  TemplateProofs2 TemplateProofs3 TemplateProofs4 RenderSpec RenderProofs4 V1Template V1TemplateSpec V1TemplateProofs.

(** ** Version 1 does what version 2 does, without the fathers *)
Definition erase (T : tmpl) : tmpl := Tmpl (t_name T) (t_root T) (t_subs T) None.
Definition erase_state (s : cstate) : cstate := CState (s_starts s) (s_uppers s) (s_actual s) (s_compiled s) (erase <$> s_heap s).
Lemma erase_fatherless th : fatherless th -> erase <$> th = th.
Proof.
  intros H. apply map_eq. intros x. rewrite lookup_fmap. destruct (th !! x) as [T|] eqn:E; [|done]. simpl. f_equal.
  specialize (H x T E). destruct T; simpl in *. by subst.
Qed.
Lemma erase_is_fatherless th : fatherless (erase <$> th).
Proof. intros x T. rewrite lookup_fmap, fmap_Some. by intros (T' & _ & ->). Qed.
Lemma erase_alter f g (t : loc) (th : theap) : (forall T, erase (f T) = g (erase T)) -> erase <$> alter f t th = alter g t (erase <$> th).
Proof.
  intros H. apply map_eq. intros x. rewrite lookup_fmap. destruct (decide (x = t)) as [->|Hx].
  - rewrite !lookup_alter, lookup_fmap. destruct (th !! t); [|done]. simpl. by rewrite H.
  - rewrite !lookup_alter_ne, lookup_fmap by done. done.
Qed.
Lemma erase_same f (t : loc) (th : theap) : (forall T, erase (f T) = erase T) -> erase <$> alter f t th = erase <$> th.
Proof.
  intros H. apply map_eq. intros x. rewrite !lookup_fmap. destruct (decide (x = t)) as [->|Hx].
  - rewrite !lookup_alter. destruct (th !! t); [|done]. simpl. by rewrite H.
  - rewrite !lookup_alter_ne by done. done.
Qed.
Lemma erase_add th t n x : add_template1 (erase <$> th) t n x = erase <$> add_template th t n x.
Proof.
  unfold add_template1, add_template. rewrite lookup_fmap. destruct (th !! t) as [T|]; [|done]. simpl.
  rewrite (erase_alter _ (fun X => Tmpl (t_name X) (t_root X) (Some (<[n := x]> match t_subs T with Some m => m | None => ∅ end)) (t_father X))) by done.
  by rewrite erase_same.
Qed.
Lemma erase_register th t n x : register1 (erase <$> th) t n x = erase <$> register th t n x.
Proof.
  unfold register1, register. case_bool_decide; [|apply erase_add].
  generalize (split_on "|"%char n). intros l. revert th. induction l as [|v l IH]; intros th; simpl; [done|].
  destruct v; [apply IH|]. by rewrite erase_add, IH.
Qed.
Lemma erase_step i s : second_step1 i (erase_state s) = erase_state <$> second_step i s.
Proof.
  destruct s as [sts ups a c th]. unfold second_step1, second_step, erase_state. cbn [s_compiled s_starts s_uppers s_actual s_heap].
  destruct (c !! i) as [x|]; [|done]. case_bool_decide; [|case_bool_decide; [|done]].
  - unfold talloc. simpl. rewrite dom_fmap_L, fmap_insert. done.
  - destruct sts as [|sp sts]; [done|]. destruct ups as [|up ups]; [done|]. simpl. f_equal. unfold erase_state. simpl. f_equal.
    rewrite <- erase_register. f_equal.
    + symmetry. by apply erase_alter.
    + rewrite lookup_fmap. by destruct (th !! a).
Qed.
Lemma erase_pass k i s : second_pass1 k i (erase_state s) = (erase_state (second_pass k i s).1, (second_pass k i s).2).
Proof.
  revert i s. induction k as [|k IH]; intros i s; cbn [second_pass1 second_pass]; [done|].
  rewrite erase_step. destruct (second_step i s) as [s'|]; [|done]. simpl. apply IH.
Qed.
Lemma erase_compile th t data : compile1 (erase <$> th) t data =
  (erase <$> (compile_list th t (first_pass1 data)).1, (compile_list th t (first_pass1 data)).2).
Proof.
  unfold compile1, compile_list. change (CState [] [] t (first_pass1 data) (erase <$> th)) with (erase_state (CState [] [] t (first_pass1 data) th)).
  rewrite erase_pass. destruct (second_pass _ _ _) as [s ok]. simpl. destruct ok; [|done]. destruct (s_starts s); [|done]. simpl. f_equal.
  symmetry. by apply erase_alter.
Qed.

Lemma reads1_sensible s l : reads1 s l -> Forall sensible l.
Proof.
  induction 1 as [|s tk r l Hs H IH|a s l Ha Hn He H IH]; [constructor| |by constructor].
  constructor; [|done]. intros ->. inversion Hs; subst; done.
Qed.
Lemma box_ok_erase th t i : box_ok th t i -> box_ok1 (erase <$> th) i.
Proof.
  induction 1 as [t k|t x nm body X HX Hn Hr Hs Hf Hb IH]; [constructor|].
  apply b1_box with (erase X); try done. by rewrite lookup_fmap, HX.
Qed.
(** What loading does to the templates. *)
Lemma compile1_spec th t T data toks : fatherless th -> th !! t = Some T -> reads1 data toks ->
  let '(th', ok) := compile1 th t data in
  fatherless th' /\ (forall y, y ∈ dom th -> y <> t -> th' !! y = th !! y) /\
  if ok then
    balanced 0 toks /\ exists is, layout is toks /\ loaded1 th' (subs_of T) t is /\
      NoDup (flat_map box_locs is) /\ (forall x, x ∈ flat_map box_locs is -> x ∉ dom th)
  else ~ balanced 0 toks /\ exists m, th' !! t = Some (Tmpl (t_name T) (t_root T) m None).
Proof.
  intros Hf HT Hr. rewrite <- (erase_fatherless th Hf), erase_compile, (proj1 (first_pass1_iff data toks) Hr).
  pose proof (compile_list_spec th t T toks HT (reads1_sensible _ _ Hr)) as H.
  destruct (compile_list th t (map stored toks)) as [th' ok]. simpl. destruct H as [H1 H2].
  split; [apply erase_is_fatherless|]. split.
  { intros y Hy Hyt. rewrite dom_fmap_L in Hy. rewrite !lookup_fmap. by rewrite H1. }
  destruct ok.
  - destruct H2 as (Hb & is & Hlay & (T' & HT' & Hroot & Hreg & Hbox) & Hnd & Hfr & _). split; [done|]. exists is.
    split; [done|]. split; [|split; [done|intros x Hx; rewrite dom_fmap_L; by apply Hfr]].
    exists (erase T'). split; [by rewrite lookup_fmap, HT'|]. split; [done|]. split; [done|].
    intros i Hi. eapply box_ok_erase. by apply Hbox.
  - destruct H2 as (Hb & m & Hm). split; [done|]. exists m. by rewrite lookup_fmap, Hm.
Qed.
Lemma compile1_ok_iff th t T data toks : fatherless th -> th !! t = Some T -> reads1 data toks ->
  (compile1 th t data).2 = true <-> balanced 0 toks.
Proof.
  intros Hf HT Hr. pose proof (compile1_spec th t T data toks Hf HT Hr) as H. destruct (compile1 th t data) as [th' [|]]; simpl.
  - destruct H as (_ & _ & H & _). done.
  - destruct H as (_ & _ & H & _). split; [done|]. by intros ?%H.
Qed.
Lemma new_template1_spec th data toks : fatherless th -> reads1 data toks ->
  (balanced 0 toks -> exists th' t is, new_template1 th data = (th', Some t) /\ t ∉ dom th /\
     (forall y, y ∈ dom th -> th' !! y = th !! y) /\ layout is toks /\ loaded1 th' ∅ t is) /\
  (~ balanced 0 toks -> (new_template1 th data).2 = None).
Proof.
  intros Hf Hr. unfold new_template1, talloc. set (t := fresh (dom th)).
  assert (Ht : t ∉ dom th) by apply is_fresh.
  pose proof (compile1_spec (<[t := empty_tmpl]> th) t empty_tmpl data toks) as H.
  destruct (compile1 (<[t := empty_tmpl]> th) t data) as [th' ok].
  destruct H as (_ & H1 & H2); [|by rewrite lookup_insert|done|].
  { intros x X. destruct (decide (x = t)) as [->|Hx]; [rewrite lookup_insert; by intros [= <-]|]. rewrite lookup_insert_ne by done. apply Hf. }
  destruct ok; simpl.
  - destruct H2 as (Hb & is & Hl & Hld & _). split; [|done]. intros _. exists th', t, is. split; [done|]. split; [done|]. split; [|done].
    intros y Hy. assert (y <> t) by (intros ->; done). rewrite H1; [by rewrite lookup_insert_ne|rewrite dom_insert_L; set_solver|done].
  - destruct H2 as (Hb & _). split; [done|done].
Qed.

(** ** Templates made by loading *)
Lemma compiled_erase th : compiled th -> compiled (erase <$> th).
Proof. intros Hc t T ps. rewrite lookup_fmap, fmap_Some. intros (T' & HT & ->). intros Hr. by eapply Hc. Qed.
Lemma compile1_compiled th t data : fatherless th -> compiled th -> compiled (compile1 th t data).1.
Proof.
  intros Hf Hc. rewrite <- (erase_fatherless th Hf), erase_compile. simpl. apply compiled_erase.
  destruct (first_pass_reads1 data) as (l & _ & ->). by apply compile_list_compiled.
Qed.
Lemma step_fatherless i s s' : fatherless (s_heap s) -> second_step1 i s = Some s' -> fatherless (s_heap s').
Proof.
  intros Hf. assert (E : s = erase_state s) by (destruct s; unfold erase_state; simpl in *; by rewrite erase_fatherless).
  rewrite E, erase_step. destruct (second_step i s) as [s''|]; [|done]. simpl. intros [= <-]. apply erase_is_fatherless.
Qed.
Lemma compile1_fatherless th t data : fatherless th -> fatherless (compile1 th t data).1.
Proof. intros Hf. rewrite <- (erase_fatherless th Hf), erase_compile. apply erase_is_fatherless. Qed.

(** Sub templates are younger than their owners. *)
Definition aged (age : loc -> nat) (th : theap) : Prop :=
  forall x T n y, th !! x = Some T -> subs_of T !! n = Some y -> is_Some (th !! y) /\ (age x < age y)%nat.
Fixpoint chain (age : loc -> nat) (th : theap) (a : loc) (ups : list loc) : Prop :=
  is_Some (th !! a) /\ match ups with [] => True | u :: ups' => (age u < age a)%nat /\ chain age th u ups' end.
Lemma chain_mono age age' th th' a ups : chain age th a ups -> (forall x, is_Some (th !! x) -> is_Some (th' !! x) /\ age' x = age x) ->
  chain age' th' a ups.
Proof.
  revert a. induction ups as [|u ups IH]; intros a [Ha Hu] H; split; [by apply H|done|by apply H|].
  destruct Hu as [Hlt Hu]. split; [|by apply IH]. rewrite (proj2 (H a Ha)). destruct ups; destruct Hu as [Hu _]; by rewrite (proj2 (H u Hu)).
Qed.
Lemma alter_same_aged age th a f : (forall T, t_subs (f T) = t_subs T) -> aged age th -> aged age (alter f a th).
Proof.
  intros Hf Ha x T n y Hx Hn. rewrite lookup_alter_is_Some. destruct (decide (x = a)) as [->|Hxa].
  - rewrite lookup_alter in Hx. destruct (th !! a) as [A|] eqn:EA; [|done]. injection Hx as <-. unfold subs_of in Hn. rewrite Hf in Hn. by eapply Ha.
  - rewrite lookup_alter_ne in Hx by done. by eapply Ha.
Qed.
Lemma add_aged age th t n x : aged age th -> is_Some (th !! x) -> (age t < age x)%nat -> aged age (add_template1 th t n x).
Proof.
  intros Ha Hx Hlt. unfold add_template1. destruct (th !! t) as [T|] eqn:ET; [|done].
  intros y Y m z Hy Hm. rewrite lookup_alter_is_Some. destruct (decide (y = t)) as [->|Hyt].
  - rewrite lookup_alter, ET in Hy. injection Hy as <-. cbn in Hm. destruct (decide (m = n)) as [->|Hmn].
    + rewrite lookup_insert in Hm. by injection Hm as <-.
    + rewrite lookup_insert_ne in Hm by done. by eapply Ha.
  - rewrite lookup_alter_ne in Hy by done. by eapply Ha.
Qed.
Lemma add_dom th t n x y : is_Some (add_template1 th t n x !! y) <-> is_Some (th !! y).
Proof. unfold add_template1. destruct (th !! t); [|done]. by rewrite lookup_alter_is_Some. Qed.
Lemma register_aged age th t n x : aged age th -> is_Some (th !! x) -> (age t < age x)%nat ->
  aged age (register1 th t n x) /\ forall y, is_Some (register1 th t n x !! y) <-> is_Some (th !! y).
Proof.
  intros Ha Hx Hlt. unfold register1. case_bool_decide; [|split; [by apply add_aged|apply add_dom]].
  generalize (split_on "|"%char n). intros l. revert th Ha Hx. induction l as [|v l IH]; intros th Ha Hx; simpl; [done|].
  destruct v as [|c v]; [by apply IH|]. destruct (IH (add_template1 th t (c :: v) x)) as [H1 H2].
  - by apply add_aged.
  - by apply add_dom.
  - split; [done|]. intros y. rewrite H2. apply add_dom.
Qed.
Definition young (age : loc -> nat) (th : theap) : nat := S (map_fold (fun x _ m => Nat.max (age x) m) 0%nat th).
Lemma young_spec age th x : is_Some (th !! x) -> (age x < young age th)%nat.
Proof.
  intros [X HX]. unfold young. apply Nat.lt_succ_r. revert HX.
  apply (map_fold_ind (fun m th => th !! x = Some X -> (age x <= m)%nat)); [by rewrite lookup_empty|].
  intros i Y th' m _ IH. destruct (decide (x = i)) as [->|Hxi]; [lia|]. rewrite lookup_insert_ne by done. intros H%IH. lia.
Qed.
Lemma alloc_aged age th T l : aged age th -> th !! l = None -> t_subs T = None ->
  exists age', aged age' (<[l := T]> th) /\ (forall x, is_Some (th !! x) -> age' x = age x /\ (age' x < age' l)%nat).
Proof.
  intros Ha Hl HT. exists (fun x => if decide (x = l) then young age th else age x).
  assert (H : forall x, is_Some (th !! x) -> (if decide (x = l) then young age th else age x) = age x).
  { intros x Hx. destruct (decide (x = l)) as [->|]; [|done]. rewrite Hl in Hx. by destruct Hx. }
  split.
  - intros x X n y Hx Hn. destruct (decide (x = l)) as [->|Hxl].
    + rewrite lookup_insert in Hx. injection Hx as <-. unfold subs_of in Hn. rewrite HT in Hn. done.
    + rewrite lookup_insert_ne in Hx by done. destruct (Ha _ _ _ _ Hx Hn) as [Hy Hlt]. split.
      * destruct (decide (y = l)) as [->|]; [by rewrite lookup_insert|by rewrite lookup_insert_ne].
      * by rewrite (H y Hy).
  - intros x Hx. rewrite (H x Hx). split; [done|]. rewrite decide_True by done. by apply young_spec.
Qed.
Lemma step_aged i s s' age : second_step1 i s = Some s' -> aged age (s_heap s) -> chain age (s_heap s) (s_actual s) (s_uppers s) ->
  exists age', aged age' (s_heap s') /\ chain age' (s_heap s') (s_actual s') (s_uppers s') /\
    forall x, is_Some (s_heap s !! x) -> is_Some (s_heap s' !! x) /\ age' x = age x.
Proof.
  destruct s as [sts ups a c th]. unfold second_step1. cbn [s_compiled s_starts s_uppers s_actual s_heap]. intros Hs Ha Hc.
  destruct (c !! i) as [x|]; [|injection Hs as <-; by exists age].
  case_bool_decide; [|case_bool_decide; [|injection Hs as <-; by exists age]].
  - unfold talloc in Hs. injection Hs as <-. cbn [s_heap s_actual s_uppers]. set (l := fresh (dom th)).
    assert (Hl : th !! l = None) by (apply not_elem_of_dom, is_fresh).
    destruct (alloc_aged age th (Tmpl (p_data x) None None None) l Ha Hl eq_refl) as (age' & Ha' & Hag). exists age'. split; [done|].
    assert (Hin : forall y, is_Some (th !! y) -> is_Some (<[l := Tmpl (p_data x) None None None]> th !! y) /\ age' y = age y).
    { intros y Hy. split; [|by apply Hag]. destruct (decide (y = l)) as [->|]; [by rewrite lookup_insert|by rewrite lookup_insert_ne]. }
    split; [|done]. split; [by rewrite lookup_insert|]. split; [|by eapply chain_mono].
    apply Hag. by destruct ups; destruct Hc.
  - destruct sts as [|sp sts]; [done|]. destruct ups as [|up ups]; [done|]. injection Hs as <-. cbn [s_heap s_actual s_uppers].
    destruct Hc as [Has [Hlt Hc]].
    set (th1 := alter _ a th). assert (Ha1 : aged age th1) by (by apply alter_same_aged).
    assert (Hd1 : forall y, is_Some (th1 !! y) <-> is_Some (th !! y)) by (intros y; apply lookup_alter_is_Some).
    set (nm := match th !! a with Some T => t_name T | None => [] end).
    destruct (register_aged age th1 up nm a Ha1) as [H1 H2]; [by apply Hd1|done|].
    exists age. split; [done|]. split; [|intros y Hy; split; [by apply H2, Hd1|done]].
    eapply chain_mono; [exact Hc|]. intros y Hy. split; [by apply H2, Hd1|done].
Qed.
Lemma pass_aged k i s age : aged age (s_heap s) -> chain age (s_heap s) (s_actual s) (s_uppers s) ->
  exists age', aged age' (s_heap (second_pass1 k i s).1).
Proof.
  revert i s age. induction k as [|k IH]; intros i s age Ha Hc; cbn [second_pass1]; [by exists age|].
  destruct (second_step1 i s) as [s'|] eqn:E; [|by exists age].
  destruct (step_aged i s s' age E Ha Hc) as (age' & Ha' & Hc' & _). by eapply IH.
Qed.
Lemma compile1_aged th t data age : aged age th -> is_Some (th !! t) -> exists age', aged age' (compile1 th t data).1.
Proof.
  intros Ha Ht. unfold compile1.
  destruct (pass_aged (length (first_pass1 data)) 0 (CState [] [] t (first_pass1 data) th) age Ha (conj Ht I)) as [age' H].
  destruct (second_pass1 _ _ _) as [s ok]. exists age'. destruct ok; [|done]. destruct (s_starts s); [|done]. by apply alter_same_aged.
Qed.
Lemma built1_ok th : built1 th -> fatherless th /\ compiled th /\ exists age, aged age th.
Proof.
  induction 1 as [|th data H (Hf & Hc & age & Ha)|th t data H (Hf & Hc & age & Ha) Ht].
  - split; [by intros x X; rewrite lookup_empty|]. split; [by intros x X ps; rewrite lookup_empty|].
    exists (fun _ => 0%nat). intros x X n y. by rewrite lookup_empty.
  - unfold new_template1, talloc. set (t := fresh (dom th)). assert (Ht : th !! t = None) by (apply not_elem_of_dom, is_fresh).
    destruct (alloc_aged age th empty_tmpl t Ha Ht eq_refl) as (age' & Ha' & _).
    assert (Hf' : fatherless (<[t := empty_tmpl]> th)).
    { intros x X. destruct (decide (x = t)) as [->|Hx]; [rewrite lookup_insert; by intros [= <-]|]. rewrite lookup_insert_ne by done. apply Hf. }
    pose proof (compile1_fatherless _ t data Hf') as H1.
    pose proof (compile1_compiled _ t data Hf' (compiled_insert th t empty_tmpl Hc ltac:(done))) as H2.
    pose proof (compile1_aged _ t data age' Ha' ltac:(by rewrite lookup_insert)) as H3.
    destruct (compile1 _ t data). done.
  - split; [by apply compile1_fatherless|]. split; [by apply compile1_compiled|]. by eapply compile1_aged.
Qed.
