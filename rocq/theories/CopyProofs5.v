(** * Goroutines that clone, execute and look up templates: the theorems (C117). *)
From Verif Require Import GoBase GoStrings GoStringsProofs DatasetModel LangModel DatasetSpec TemplateModel TemplateSpec RenderSpec RenderProofs RenderProofs9 RenderProofs10 HoleProofs2
  CopyModel CopySpec CopyProofs CopyProofs2 CopyProofs3 CopyProofs4.

Section Fits.
  Context (th : theap) (Hclosed : closed th) (Hcons : consistent th) (Hroot : rooted th).
  Lemma has_depth x : is_Some (th !! x) -> exists d, depth th x d.
  Proof.
    intros Hx. induction (Hroot x) as [x _ IH]. destruct Hx as [X HX]. destruct (t_father X) as [f|] eqn:Ef; [|exists 0%nat; by eapply dp_top].
    destruct (IH f) as [n Hn]; [by exists X|by eapply (proj2 Hclosed)|]. exists (S n). by eapply dp_under.
  Qed.
  Lemma depth_fits k : forall x d n, depth th x d -> (size (dom th) - d <= k)%nat -> (k <= n)%nat -> fits th n x.
  Proof.
    induction k as [|k IH]; intros x d n Hd Hk Hn; pose proof (depth_bound th x d Hd) as Hb; [lia|]. destruct n as [|n]; [lia|].
    assert (HX : is_Some (th !! x)) by (destruct Hd; by eexists). destruct HX as [X HX]. exists X. split; [done|]. intros nm y Hy. destruct (Hcons x X nm y HX Hy) as (Y & HY & Hf).
    apply (IH y (S d)); [by eapply dp_under|lia|lia].
  Qed.
  Lemma fits_all n t : (size (dom th) <= n)%nat -> is_Some (th !! t) -> fits th n t.
  Proof. intros Hn Ht. destruct (has_depth t Ht) as [d Hd]. eapply (depth_fits (size (dom th))); [exact Hd|lia|lia]. Qed.
  Lemma depth_rises d : forall x n, depth th x d -> (d < n)%nat -> rises th n x.
  Proof.
    induction d as [|d IH]; intros x n Hd Hn; (destruct n as [|n]; [lia|]); intros X f HX Hf; inversion Hd; simplify_eq. apply IH; [done|lia].
  Qed.
  Lemma rises_all n t : (size (dom th) <= n)%nat -> is_Some (th !! t) -> rises th n t.
  Proof. intros Hn Ht. destruct (has_depth t Ht) as [d Hd]. pose proof (depth_bound th t d Hd). eapply depth_rises; [exact Hd|lia]. Qed.
End Fits.

Section Main.
  Context (F : golib) (ord : heap -> gmap bytes value -> list (bytes * value)) (langs : nat -> option lang).
  Context (th : theap) (Hclosed : closed th) (Hcons : consistent th).
  Lemma mirror_good F' ord' langs' th' rho y : mirrors th th' rho [] -> is_Some (th' !! y) -> as_good F' ord' langs' th' th y (rho y).
  Proof.
    intros HM Hy n h data. unfold execute. destruct data as [d|].
    - destruct (dget n h d (B "#")) as [r| |]; cbn [obind]; [|done..]. by rewrite (mirror_renders th F' ord' th' rho y n _ _ HM Hy).
    - by rewrite (mirror_renders th F' ord' th' rho y n _ _ HM Hy).
  Qed.
  Lemma glob_jobs n jobs th' ps : Forall (allowed th n) jobs -> rtc tstep (th, map (t_job F ord langs n) jobs) (th', ps) ->
    exists w Ks, w_th w = th' /\ glob th (fun i => match jobs !! i with Some j => panics j | None => True end) (fun i => match jobs !! i with Some j => gives_up th n j | None => True end)
      (fun i a w => match jobs !! i with Some j => outcome_ok th j a w | None => True end) w Ks ps.
  Proof.
    intros Ha Hr. eapply (glob_steps th _ _ _) with (w := world0 th); [| |exact Hr].
    - intros i a w w' L. destruct (jobs !! i); [|done]. by apply outcome_later.
    - apply glob_start; [done|]. intros i p Hp. rewrite list_lookup_fmap in Hp. destruct (jobs !! i) as [j|] eqn:Ej; [|done]. cbn in Hp. injection Hp as <-.
      rewrite Forall_forall in Ha. eapply safe_weaken; [| | |apply (job_ok F ord langs th Hclosed Hcons n j)]; [done|done| |apply Ha; by eapply elem_of_list_lookup_2].
      intros a K' w' _ [-> H]. split; [done|]. by rewrite Ej.
  Qed.
  Lemma copies n jobs th' ps : Forall (allowed th n) jobs -> rtc tstep (th, map (t_job F ord langs n) jobs) (th', ps) -> Forall (fun p => exists o, p = tlift o) ps ->
    (forall F' ord' langs' x, is_Some (th !! x) -> as_good F' ord' langs' th' th x x) /\
    (forall i held h cs held' texts, jobs !! i = Some (Script held h cs) -> ps !! i = Some (TRet (Did held' texts)) ->
      forall F' ord' langs', Forall2 (as_good F' ord' langs' th' th) held' (models held cs)).
  Proof.
    intros Ha Hr He. destruct (glob_jobs n jobs th' ps Ha Hr) as (w & Ks & <- & HG). destruct (glob_over _ _ _ _ w Ks ps HG He) as [HM HP]. split.
    - intros F' ord' langs' x Hx. destruct HG as ((I1 & _) & _). destruct (I1 x Hx) as [[Hk Er] _]. rewrite <- Er at 2. by apply mirror_good.
    - intros i held h cs held' texts Hj Hp F' ord' langs'. destruct (glob_end _ _ _ _ w Ks ps i (Ok (Did held' texts)) HG Hp) as [_ H]. cbn in H. rewrite Hj in H. cbn in H.
      eapply Forall2_impl; [exact H|]. intros y x [[Hk <-] _]. by apply mirror_good.
  Qed.
  Lemma lookups n jobs th' ps i t name o : Forall (allowed th n) jobs -> rtc tstep (th, map (t_job F ord langs n) jobs) (th', ps) ->
    jobs !! i = Some (Lookup t name) -> ps !! i = Some (tlift o) -> (rooted th -> (size (dom th) <= n)%nat -> o <> NoFuel) /\ o <> Panic /\
    forall a, o = Ok a -> exists r, a = Saw r /\ forall y, r = Some y -> exists x, hears th name t (Some x) /\
      (Forall (fun p => exists o, p = tlift o) ps -> forall F' ord' langs', as_good F' ord' langs' th' th y x).
  Proof.
    intros Ha Hr Hj Hp. destruct (glob_jobs n jobs th' ps Ha Hr) as (w & Ks & <- & HG). destruct (glob_end _ _ _ _ w Ks ps i o HG Hp) as [_ H]. cbn in H. rewrite Hj in H.
    split; [|split].
    - intros Hroot Hn ->. apply H. apply rises_all; [done..|]. rewrite Forall_forall in Ha. apply (Ha (Lookup t name)). by eapply elem_of_list_lookup_2.
    - by intros ->.
    - intros a ->. cbn in H. destruct a as [|r]; [done|]. exists r. split; [done|]. intros y ->. destruct H as (x & Hx & [[Hk <-] _]). exists (w_rho w y). split; [done|].
      intros He F' ord' langs'. apply mirror_good; [|done]. by eapply glob_over.
  Qed.
  Lemma texts n jobs th' ps i held h cs : compiled th -> Forall (allowed th n) jobs -> rtc tstep (th, map (t_job F ord langs n) jobs) (th', ps) ->
    jobs !! i = Some (Script held h cs) -> (forall t, t ∈ held -> self_contained th t) -> in_turn F ord langs th n held h cs <> NoFuel ->
    exists p, ps !! i = Some p /\ forall o, p = tlift o ->
      match in_turn F ord langs th n held h cs with Ok l => exists held', o = Ok (Did held' l) | _ => o = Panic end.
  Proof.
    intros Hcomp Ha Hr Hj Hs Hn.
    set (Ef := fun k => if decide (k = i) then in_turn F ord langs th n held h cs = Panic else True).
    set (Eo := fun k => if decide (k = i) then False else True).
    set (Phi := fun k (a : answer) (_ : world) => if decide (k = i) then exists b, in_turn F ord langs th n held h cs = Ok b /\ exists held', a = Did held' b else True).
    assert (HG : exists w Ks, w_th w = th' /\ glob th Ef Eo Phi w Ks ps).
    { eapply (glob_steps th Ef Eo Phi) with (w := world0 th); [| |exact Hr]; [done|]. apply glob_start; [done|]. intros k p Hp. rewrite list_lookup_fmap in Hp. destruct (jobs !! k) as [j|] eqn:Ej; [|done].
      cbn in Hp. injection Hp as <-. rewrite Forall_forall in Ha. assert (Haj : allowed th n j) by (apply Ha; by eapply elem_of_list_lookup_2).
      unfold Ef, Eo, post, Phi. destruct (decide (k = i)) as [->|Hne].
      - assert (j = Script held h cs) as -> by congruence.
        eapply (safe_weaken th (in_turn F ord langs th n held h cs = Panic) False); [done|done| |apply (job_texts F ord langs th Hclosed Hcons n held h cs Hcomp Haj Hs Hn)].
        intros a K' w' _ [-> H]. done.
      - eapply safe_weaken; [| | |apply (job_ok F ord langs th Hclosed Hcons n j Haj)]; [done|done|]. by intros a K' w' _ [-> H]. }
    destruct HG as (w & Ks & <- & HG).
    assert (Hlen : forall s s' : theap * list (tact answer), rtc tstep s s' -> length s'.2 = length s.2).
    { intros s s' H. induction H as [|s1 s2 s3 Hs1 _ IH]; [done|]. rewrite IH. destruct Hs1. cbn. by rewrite insert_length. }
    apply Hlen in Hr. cbn in Hr. rewrite map_length in Hr. destruct (lookup_lt_is_Some_2 ps i) as [p Hp]; [rewrite Hr; by eapply lookup_lt_Some|].
    exists p. split; [done|]. intros o ->. destruct (glob_end _ _ _ _ w Ks ps i o HG Hp) as [_ H]. unfold Phi, Ef, Eo in H.
    destruct o as [a| |]; rewrite decide_True in H by done.
    - destruct H as (b & -> & held' & ->). by exists held'.
    - by rewrite H.
    - done.
  Qed.
End Main.

(** ** Cases *)
Fixpoint tfollow {A} (sch : list nat) (s : theap * list (tact A)) : theap * list (tact A) :=
  match sch with
  | [] => s
  | i :: sch' => match s.2 !! i with Some (TAct w k) => tfollow sch' (w s.1, <[i := k s.1]> s.2) | _ => tfollow sch' s end
  end.
Lemma tfollow_steps {A} sch : forall s : theap * list (tact A), rtc tstep s (tfollow sch s).
Proof.
  induction sch as [|i sch IH]; intros [h ps]; [done|]. cbn [tfollow fst snd]. destruct (ps !! i) as [[| | |w k]|] eqn:E; try apply IH.
  eapply rtc_l; [by econstructor|apply IH].
Qed.
Definition siblings : string := "<&&a&&>[[a]]x&&b&&[[]][[b]]y[[]]".
Definition sub (th : theap) (t : loc) (n : string) : loc := match th !! t with Some T => match subs_of T !! B n with Some x => x | None => t end | None => t end.
Definition nested : string := "&&t&&[[t]]<&&a&&>[[a]]x&&b&&[[]][[b]]y[[]][[]][[b]]z[[]]".
Definition copy_and_show (s : string) : job := Script [(page s).2] ∅ [Copy 0 tord0; Show 1 None].
Lemma tord0_any : any_order tord0.
Proof. intros th m. reflexivity. Qed.
Lemma page_allowed s : (size (dom (page s).1) <= 30)%nat -> is_Some ((page s).1 !! (page s).2) -> allowed (page s).1 30 (copy_and_show s).
Proof.
  intros Hn Ht. destruct (built_ok _ (page_built s)) as (_ & H1 & H2 & H3). split; [|intros i tord [[= -> ->]|[[=]|[]%elem_of_nil]%elem_of_cons]%elem_of_cons; apply tord0_any].
  intros t ->%elem_of_list_singleton. by apply fits_all.
Qed.
(** The first clone has gone through the boxes and not yet got them; the second then clones and executes. *)
Lemma lost : exists th t, built th /\ allowed th 30 (Script [t] ∅ [Copy 0 tord0; Show 1 None]) /\ forall F langs,
  in_turn F ord0 langs th 30 [t] ∅ [Copy 0 tord0; Show 1 None] = Ok [B "<xy>"] /\
  exists th' held1 held2, rtc tstep (th, map (t_job F ord0 langs 30) [Script [t] ∅ [Copy 0 tord0; Show 1 None]; Script [t] ∅ [Copy 0 tord0; Show 1 None]])
    (th', [TRet (Did held1 [B "<xy>"]); TRet (Did held2 [B "<x>"])]).
Proof.
  exists (page siblings).1, (page siblings).2. split; [apply page_built|]. split; [apply page_allowed; [vm_compute; lia|vm_compute; by eexists]|]. intros F langs. split; [vm_compute; reflexivity|].
  pose proof (tfollow_steps (repeat 0%nat 25 ++ repeat 1%nat 80 ++ repeat 0%nat 60) ((page siblings).1, map (t_job F ord0 langs 30) [copy_and_show siblings; copy_and_show siblings])) as H.
  destruct (tfollow _ _) as [h' ps] eqn:E. exists h'.
  assert (exists held1 held2, ps = [TRet (Did held1 [B "<xy>"]); TRet (Did held2 [B "<x>"])]) as (held1 & held2 & ->); [|by exists held1, held2].
  change ps with (h', ps).2. rewrite <- E. vm_compute. do 2 eexists. reflexivity.
Qed.
(** Execute finds the box z of the page instead of y while another goroutine clones t. *)
Lemma wrong : exists th t x, built th /\ Forall (allowed th 30) [Script [x] ∅ [Copy 0 tord0]; Script [t] ∅ [Show 0 None]] /\ forall F langs,
  in_turn F ord0 langs th 30 [t] ∅ [Show 0 None] = Ok [B "<xy>"] /\
  exists th' held1 held2, rtc tstep (th, map (t_job F ord0 langs 30) [Script [x] ∅ [Copy 0 tord0]; Script [t] ∅ [Show 0 None]])
    (th', [TRet (Did held1 []); TRet (Did held2 [B "<xz>"])]).
Proof.
  exists (page nested).1, (page nested).2, (sub (page nested).1 (page nested).2 "t"). split; [apply page_built|]. split.
  { destruct (built_ok _ (page_built nested)) as (_ & H1 & H2 & H3).
    constructor; [|constructor; [|constructor]]; (split; [intros t0 ->%elem_of_list_singleton; apply fits_all; [done..|vm_compute; lia|vm_compute; by eexists]|]).
    - intros i tord [[= -> ->]|[]%elem_of_nil]%elem_of_cons; apply tord0_any.
    - by intros i tord [[=]|[]%elem_of_nil]%elem_of_cons. }
  intros F langs. split; [vm_compute; reflexivity|].
  pose proof (tfollow_steps (repeat 0%nat 25 ++ repeat 1%nat 14 ++ repeat 0%nat 60 ++ repeat 1%nat 60) ((page nested).1, map (t_job F ord0 langs 30)
    [Script [sub (page nested).1 (page nested).2 "t"] ∅ [Copy 0 tord0]; Script [(page nested).2] ∅ [Show 0 None]])) as H.
  destruct (tfollow _ _) as [h' ps] eqn:E. exists h'.
  assert (exists held1 held2, ps = [TRet (Did held1 []); TRet (Did held2 [B "<xz>"])]) as (held1 & held2 & ->); [|by exists held1, held2].
  change ps with (h', ps).2. rewrite <- E. vm_compute. do 2 eexists. reflexivity.
Qed.

(** ** A test for templates that call their own boxes only *)
Definition own_check (T : tmpl) (p : param) : bool :=
  if bool_decide (p_type p = 3 \/ p_type p = 4 \/ p_type p = 5)%Z then Nat.eqb (count_occ Ascii.ascii_dec (p_data p) ":"%char) 0 && bool_decide (is_Some (subs_of T !! p_data p)) else true.
Definition dotless (T : tmpl) : bool := forallb (fun '(k, _) => negb (existsb (Ascii.eqb "."%char) k)) (map_to_list (subs_of T)).
Lemma visible_key th t n y : visible th t n (Some y) -> exists x X, th !! x = Some X /\ subs_of X !! n = Some y.
Proof. remember (Some y) as r eqn:Er. induction 1; simplify_eq; eauto. Qed.
Lemma visible_own th x X n y y0 : th !! x = Some X -> subs_of X !! n = Some y0 -> visible th x n (Some y) -> y = y0.
Proof. intros HX Hn Hv. inversion Hv; simplify_eq; congruence. Qed.
Lemma self_checked th t : closed th -> is_Some (th !! t) ->
  forallb (fun '(_, T) => dotless T && match t_root T with Some ps => forallb (own_check T) ps | None => true end) (map_to_list th) = true -> self_contained th t.
Proof.
  intros Hc Ht Hf. exists (fun x => is_Some (th !! x)). split; [done|]. intros x X l k n y _ HX Hr Hk Hm Hv.
  rewrite forallb_forall in Hf. assert (HT : forall z Z, th !! z = Some Z -> dotless Z = true /\ match t_root Z with Some ps => forallb (own_check Z) ps | None => true end = true).
  { intros z Z HZ. apply andb_true_iff. apply (Hf (z, Z)). apply elem_of_list_In. by apply elem_of_map_to_list. }
  assert (Hnodot : forall b w, n <> dotted b w).
  { intros b w ->. destruct (visible_key _ _ _ _ Hv) as (z & Z & HZ & Hn). destruct (HT z Z HZ) as [Hd _]. unfold dotless in Hd. rewrite forallb_forall in Hd.
    specialize (Hd (dotted b w, y)). rewrite elem_of_list_In in Hd || idtac. assert (Hd2 : negb (existsb (Ascii.eqb "."%char) (dotted b w)) = true) by (apply Hd; apply elem_of_list_In; by apply elem_of_map_to_list).
    apply negb_true_iff in Hd2. assert (existsb (Ascii.eqb "."%char) (dotted b w) = true) as E; [|congruence]. apply existsb_exists. exists "."%char. split; [|by rewrite Ascii.eqb_refl].
    unfold dotted. apply in_or_app. right. by left. }
  assert (Hown : own_check X (stored k) = true).
  { destruct (HT x X HX) as [_ H]. rewrite Hr in H. rewrite forallb_forall in H. apply H. apply in_map. by apply elem_of_list_In. }
  assert (Hdone : forall s, n = s -> is_Some (subs_of X !! s) -> subs_of X !! n = Some y /\ is_Some (th !! y)).
  { intros s -> [y0 Hy]. assert (y = y0) as -> by (by eapply visible_own). split; [done|]. by eapply (proj1 Hc). }
  assert (Hdt : forall s d b, count_occ Ascii.ascii_dec s ":"%char = 0%nat -> data_template s d b -> b = s).
  { intros s d b H0 [[Hs ->]|[ws Hs]]; [|apply colon_count in Hs; by rewrite H0 in Hs]. destruct Hs as [_ ->]. cbn. by rewrite app_nil_r. }
  unfold own_check in Hown.
  destruct Hm as [s a ws Hs Hl|s a f p v Hs|s d b Hs|s d b w Hs|s d b Hs|s d b w Hs]; cbn [stored p_type p_data] in Hown; rewrite bool_decide_true in Hown by auto;
    apply andb_true_iff in Hown as [H0 H1]; apply Nat.eqb_eq in H0; apply bool_decide_eq_true in H1.
  - pose proof (colon_count _ _ _ Hs) as Hcc. rewrite H0 in Hcc. destruct ws; [|done]. destruct Hs as [_ ->]. cbn in H1. rewrite app_nil_r in H1. by eapply Hdone.
  - apply colon_count in Hs. by rewrite H0 in Hs.
  - eapply Hdone; [by eapply Hdt|done].
  - by destruct (Hnodot b w).
  - eapply Hdone; [by eapply Hdt|done].
  - by destruct (Hnodot b w).
Qed.
Definition owned : string := "<&&a&&>[[a]]x&&b&&[[b]]y[[]][[]]".
Lemma own_case : built (page owned).1 /\ allowed (page owned).1 30 (copy_and_show owned) /\ self_contained (page owned).1 (page owned).2 /\
  forall F langs, in_turn F ord0 langs (page owned).1 30 [(page owned).2] ∅ [Copy 0 tord0; Show 1 None] = Ok [B "<xy>"].
Proof.
  split; [apply page_built|]. split; [apply page_allowed; [vm_compute; lia|vm_compute; by eexists]|]. split; [|intros; vm_compute; reflexivity].
  apply self_checked; [by apply built_ok, page_built|vm_compute; by eexists|vm_compute; reflexivity].
Qed.
