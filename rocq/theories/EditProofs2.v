(** * Goroutines that load, extend, clone, look up and execute templates do not panic (C118). *)
From Verif Require Import GoBase GoStrings GoStringsProofs Regex DatasetModel LangModel DatasetSpec DatasetProofs DatasetProofs2 DatasetProofs3 DatasetProofs5
  TemplateModel TemplateSpec TemplateProofs2 TemplateProofs3 TemplateProofs4 TemplateProofs5 TemplateProofs6
  RenderSpec RenderProofs RenderProofs2 RenderProofs3 RenderProofs4 RenderProofs5 RenderProofs6 RenderProofs7 CrashSpec CrashProofs CrashProofs2
  CopyModel EditModel EditSpec.

(** The templates, and those that are being made. *)
Notation world := (theap * gset loc)%type.
Definition grows (w w' : world) : Prop :=
  (forall x X, w.1 !! x = Some X -> exists X', w'.1 !! x = Some X' /\ (is_Some (t_root X) -> is_Some (t_root X')) /\
    (is_Some (t_subs X) -> is_Some (t_subs X')) /\ (is_Some (t_father X) -> is_Some (t_father X'))) /\
  (forall x, is_Some (w.1 !! x) -> x ∉ w.2 -> x ∉ w'.2).
Definition tidy (w : world) : Prop :=
  (forall x, x ∈ w.2 -> exists X, w.1 !! x = Some X /\ t_father X = None) /\
  (forall x X n y, w.1 !! x = Some X -> subs_of X !! n = Some y -> is_Some (w.1 !! y) /\ y ∉ w.2) /\
  (forall x X f, w.1 !! x = Some X -> t_father X = Some f -> is_Some (w.1 !! f)).
Definition there (w : world) (x : loc) : Prop := is_Some (w.1 !! x).
Definition pub (w : world) (x : loc) : Prop := is_Some (w.1 !! x) /\ x ∉ w.2.
Lemma grows_refl w : grows w w.
Proof. split; [|done]. intros x X HX. by exists X. Qed.
Lemma grows_trans a b c : grows a b -> grows b c -> grows a c.
Proof.
  intros [A1 A2] [B1 B2]. split.
  - intros x X HX. destruct (A1 x X HX) as (X' & HX' & a1 & a2 & a3). destruct (B1 x X' HX') as (X2 & HX2 & b1 & b2 & b3). exists X2. naive_solver.
  - intros x Hx Hp. apply B2; [|by apply A2]. destruct Hx as [X HX]. destruct (A1 x X HX) as (X' & HX' & _). by exists X'.
Qed.
Lemma there_grows w w' x : grows w w' -> there w x -> there w' x.
Proof. intros [H _] [X HX]. destruct (H x X HX) as (X' & HX' & _). by exists X'. Qed.
Lemma pub_grows w w' x : grows w w' -> pub w x -> pub w' x.
Proof. intros H [H1 H2]. split; [by eapply there_grows|]. by apply H. Qed.
Lemma pub_there w x : pub w x -> there w x.
Proof. by intros [H _]. Qed.
Lemma pub_all w w' xs : grows w w' -> Forall (pub w) xs -> Forall (pub w') xs.
Proof. intros H Hf. eapply Forall_impl; [exact Hf|]. intros x. by apply pub_grows. Qed.

(** ** One goroutine, which is making the templates [K] *)
Fixpoint goes {A} (p : tact A) (K : gset loc) (w : world) (Phi : A -> gset loc -> world -> Prop) : Prop :=
  match p with
  | TRet a => Phi a K w
  | TFail => False
  | TOut => True
  | TAct f k => forall w1, grows w w1 -> tidy w1 -> K ⊆ w1.2 -> exists w2 K2, w2.1 = f w1.1 /\ grows w1 w2 /\ tidy w2 /\ K2 ⊆ w2.2 /\
      w1.2 ∖ K ⊆ w2.2 /\ K2 ## (w1.2 ∖ K) /\ goes (k w1.1) K2 w2 Phi
  end.
Lemma goes_bind {A C} (p : tact A) (g : A -> tact C) K w (Phi : C -> gset loc -> world -> Prop) :
  goes p K w (fun a K' w' => goes (g a) K' w' Phi) -> goes (tbind p g) K w Phi.
Proof.
  revert K w. induction p as [a| | |f k IH]; intros K w H; [done..|]. cbn in *. intros w1 L1 I1 O1. destruct (H w1 L1 I1 O1) as (w2 & K2 & E & G & T & S & D1 & D2 & H2).
  exists w2, K2. repeat (split; [done|]). by apply IH.
Qed.
Lemma goes_weaken {A} (p : tact A) K w (Phi Psi : A -> gset loc -> world -> Prop) :
  (forall a K' w', grows w w' -> Phi a K' w' -> Psi a K' w') -> goes p K w Phi -> goes p K w Psi.
Proof.
  revert K w. induction p as [a| | |f k IH]; intros K w HP H; cbn in *; [apply HP; [apply grows_refl|done]|done|done|].
  intros w1 L1 I1 O1. destruct (H w1 L1 I1 O1) as (w2 & K2 & E & G & T & S & D1 & D2 & H2). exists w2, K2. repeat (split; [done|]). apply IH; [|done].
  intros a K' w' L'. apply HP. eapply grows_trans; [exact L1|]. by eapply grows_trans.
Qed.
Lemma goes_later {A} (p : tact A) K w w' (Phi : A -> gset loc -> world -> Prop) :
  (forall a K' u u', grows u u' -> Phi a K' u -> Phi a K' u') -> grows w w' -> goes p K w Phi -> goes p K w' Phi.
Proof. intros HP HL. destruct p as [a| | |f k]; cbn; [by apply HP|done|done|]. intros H w1 L1. apply H. by eapply grows_trans. Qed.
Lemma goes_read {A} (f : theap -> tact A) K w (Phi : A -> gset loc -> world -> Prop) :
  (forall w1, grows w w1 -> tidy w1 -> goes (f w1.1) K w1 Phi) -> goes (TAct (fun h => h) f) K w Phi.
Proof. intros H w1 L1 I1 O1. exists w1, K. split; [done|]. split; [apply grows_refl|]. repeat (split; [done||set_solver|]). by apply H. Qed.
Lemma goes_field {A} t (f : tmpl -> A) K w (Phi : A -> gset loc -> world -> Prop) : there w t ->
  (forall w1 T, grows w w1 -> tidy w1 -> w1.1 !! t = Some T -> Phi (f T) K w1) -> goes (field t f) K w Phi.
Proof. intros Ht H. apply goes_read. intros w1 L1 I1. destruct (there_grows _ _ _ L1 Ht) as [T HT]. rewrite HT. by apply H. Qed.
Lemma goes_lift {A} (o : outcome A) K w (Phi : A -> gset loc -> world -> Prop) : o <> Panic -> (forall a, o = Ok a -> Phi a K w) -> goes (tlift o) K w Phi.
Proof. intros Ho H. destruct o; [by apply H|done|done]. Qed.
(** Writing. *)
Lemma goes_write t f g K w (Phi : unit -> gset loc -> world -> Prop) : there w t ->
  (forall w1 T, grows w w1 -> tidy w1 -> w1.1 !! t = Some T -> g (w1.1) = TRet tt /\
    (is_Some (t_root T) -> is_Some (t_root (f T))) /\ (is_Some (t_subs T) -> is_Some (t_subs (f T))) /\ (is_Some (t_father T) -> is_Some (t_father (f T))) /\
    (t ∈ w1.2 -> t_father (f T) = None) /\ (forall n y, subs_of (f T) !! n = Some y -> pub w1 y) /\ (forall y, t_father (f T) = Some y -> there w1 y)) ->
  (forall w1, grows w w1 -> tidy w1 -> (exists T, w1.1 !! t = Some (f T)) -> Phi tt K w1) -> goes (TAct (alter f t) g) K w Phi.
Proof.
  intros Ht HT H w1 L1 I1 O1. destruct (there_grows _ _ _ L1 Ht) as [T ET]. destruct (HT w1 T L1 I1 ET) as (Eg & h1 & h2 & h3 & h4 & h5 & h6). set (w2 := (alter f t w1.1, w1.2) : world).
  assert (Ed : forall x, is_Some (w2.1 !! x) <-> is_Some (w1.1 !! x)) by (intros x; cbn; apply lookup_alter_is_Some).
  assert (G : grows w1 w2).
  { split; [|done]. intros x X HX. cbn. destruct (decide (x = t)) as [->|Hne]; [rewrite lookup_alter, HX; assert (X = T) as -> by congruence; by eexists|rewrite lookup_alter_ne by done; by exists X]. }
  assert (I2 : tidy w2).
  { destruct I1 as (I1 & I2 & I3). split; [|split].
    - intros x Hx. destruct (I1 x Hx) as (X & HX & Hf). cbn. destruct (decide (x = t)) as [->|Hne]; [|rewrite lookup_alter_ne by done; by exists X].
      rewrite lookup_alter, HX. assert (X = T) as -> by congruence. eexists. split; [done|]. by apply h4.
    - intros x X n y HX Hn. rewrite Ed. cbn in HX. destruct (decide (x = t)) as [->|Hne]; [|rewrite lookup_alter_ne in HX by done; by eapply I2].
      rewrite lookup_alter, ET in HX. injection HX as <-. by eapply h5.
    - intros x X y HX Hy. rewrite Ed. cbn in HX. destruct (decide (x = t)) as [->|Hne]; [|rewrite lookup_alter_ne in HX by done; by eapply I3].
      rewrite lookup_alter, ET in HX. injection HX as <-. by eapply h6. }
  exists w2, K. split; [done|]. split; [done|]. split; [done|]. split; [done|]. split; [set_solver|]. split; [set_solver|]. rewrite Eg. cbn. apply H; [by eapply grows_trans|done|].
  exists T. cbn. by rewrite lookup_alter, ET.
Qed.
Lemma goes_assign t f K w (Phi : unit -> gset loc -> world -> Prop) : there w t ->
  (forall w1 T, grows w w1 -> tidy w1 -> w1.1 !! t = Some T ->
    (is_Some (t_root T) -> is_Some (t_root (f T))) /\ (is_Some (t_subs T) -> is_Some (t_subs (f T))) /\ (is_Some (t_father T) -> is_Some (t_father (f T))) /\
    (t ∈ w1.2 -> t_father (f T) = None) /\ (forall n y, subs_of (f T) !! n = Some y -> pub w1 y) /\ (forall y, t_father (f T) = Some y -> there w1 y)) ->
  (forall w1, grows w w1 -> tidy w1 -> (exists T, w1.1 !! t = Some (f T)) -> Phi tt K w1) -> goes (assign t f) K w Phi.
Proof. intros Ht HT H. apply goes_write; [done| |done]. intros w1 T L1 I1 ET. rewrite ET. split; [done|]. by apply HT. Qed.
Lemma goes_root t r K w (Phi : unit -> gset loc -> world -> Prop) : there w t -> (forall w1, grows w w1 -> tidy w1 -> Phi tt K w1) ->
  goes (assign t (with_root (Some r))) K w Phi.
Proof.
  intros Ht H. apply goes_assign; [done| |auto]. intros w1 T L1 I1 ET. cbn. split; [done|]. split; [done|]. split; [done|].
  split; [intros Hp; destruct (proj1 I1 t Hp) as (X & HX & Hf); congruence|]. split; [intros n y Hn; by eapply (proj1 (proj2 I1))|intros y Hy; by eapply (proj2 (proj2 I1))].
Qed.
Lemma goes_subs t m K w (Phi : unit -> gset loc -> world -> Prop) : there w t -> (forall n y, m !! n = Some y -> pub w y) ->
  (forall w1, grows w w1 -> tidy w1 -> (exists T, w1.1 !! t = Some T /\ is_Some (t_subs T)) -> Phi tt K w1) ->
  goes (assign t (with_subs (Some m))) K w Phi.
Proof.
  intros Ht Hm H. apply goes_assign; [done| |intros w1 G1 I1 [T HT]; apply H; [done|done|by eexists]]. intros w1 T L1 I1 ET. cbn. split; [done|]. split; [done|]. split; [done|].
  split; [intros Hp; destruct (proj1 I1 t Hp) as (X & HX & Hf); congruence|]. split; [intros n y Hn; eapply pub_grows; [done|]; by eapply Hm|intros y Hy; by eapply (proj2 (proj2 I1))].
Qed.
Lemma goes_father t f K w (Phi : unit -> gset loc -> world -> Prop) : pub w t -> there w f -> (forall w1, grows w w1 -> tidy w1 -> Phi tt K w1) ->
  goes (assign t (with_father (Some f))) K w Phi.
Proof.
  intros Ht Hf H. apply goes_assign; [by apply pub_there| |auto]. intros w1 T L1 I1 ET. cbn. split; [done|]. split; [done|]. split; [done|].
  split; [intros Hp; by destruct (pub_grows _ _ _ L1 Ht)|]. split; [intros n y Hn; by eapply (proj1 (proj2 I1))|]. intros y [= <-]. by eapply there_grows.
Qed.
Lemma goes_put t name x K w (Phi : unit -> gset loc -> world -> Prop) : pub w x -> (exists T, w.1 !! t = Some T /\ is_Some (t_subs T)) ->
  (forall w1, grows w w1 -> tidy w1 -> Phi tt K w1) -> goes (put t name x) K w Phi.
Proof.
  intros Hx (T0 & HT0 & Hs0) H. apply goes_write; [by exists T0| |auto]. intros w1 T L1 I1 ET. rewrite ET.
  assert (Hs : is_Some (t_subs T)). { destruct (proj1 L1 t T0 HT0) as (T' & HT' & _ & Hs & _). assert (T' = T) as -> by congruence. by apply Hs. }
  destruct Hs as [m Hm]. rewrite Hm. split; [done|]. cbn. split; [done|]. split; [done|]. split; [done|].
  split; [intros Hp; destruct (proj1 I1 t Hp) as (X & HX & Hf); congruence|]. split; [|intros y Hy; by eapply (proj2 (proj2 I1))].
  intros n y. unfold subs_of. cbn. destruct (decide (n = name)) as [->|Hne]; [rewrite lookup_insert; intros [= <-]; by eapply pub_grows|]. rewrite lookup_insert_ne by done. intros Hn.
  eapply (proj1 (proj2 I1) t T n y ET). unfold subs_of. by rewrite Hm.
Qed.
(** A new template, for all to see or not. *)
Lemma goes_make T K w (Phi : loc -> gset loc -> world -> Prop) : t_subs T = None -> t_father T = None ->
  (forall w1 c, grows w w1 -> tidy w1 -> pub w1 c -> Phi c K w1) -> goes (make T) K w Phi.
Proof.
  intros Hs Hf H w1 L1 I1 O1. cbn. set (c := fresh (dom w1.1)). assert (Hc : w1.1 !! c = None) by (apply not_elem_of_dom, is_fresh). set (w2 := (<[c := T]> w1.1, w1.2) : world).
  assert (Hk : forall x, is_Some (w1.1 !! x) -> w2.1 !! x = w1.1 !! x) by (intros x [X HX]; cbn; apply lookup_insert_ne; intros <-; congruence).
  assert (HcP : c ∉ w1.2) by (intros Hp; destruct (proj1 I1 c Hp) as (X & HX & _); congruence).
  assert (G : grows w1 w2). { split; [|done]. intros x X HX. exists X. by rewrite Hk by (by exists X). }
  assert (I2 : tidy w2).
  { destruct I1 as (I1 & I2 & I3). split; [|split].
    - intros x Hx. destruct (I1 x Hx) as (X & HX & HfX). exists X. by rewrite Hk by (by exists X).
    - intros x X n y HX Hn. cbn in HX. destruct (decide (x = c)) as [->|Hne]; [rewrite lookup_insert in HX; injection HX as <-; unfold subs_of in Hn; by rewrite Hs in Hn|].
      rewrite lookup_insert_ne in HX by done. destruct (I2 x X n y HX Hn) as [Hy HyP]. by rewrite Hk.
    - intros x X y HX Hy. cbn in HX. destruct (decide (x = c)) as [->|Hne]; [rewrite lookup_insert in HX; injection HX as <-; congruence|].
      rewrite lookup_insert_ne in HX by done. rewrite Hk by (by eapply I3). by eapply I3. }
  exists w2, K. split; [done|]. split; [done|]. split; [done|]. split; [done|]. split; [set_solver|]. split; [set_solver|]. apply H; [by eapply grows_trans|done|].
  split; [|done]. cbn. rewrite lookup_insert. by eexists.
Qed.
Lemma goes_begin T K w (Phi : loc -> gset loc -> world -> Prop) : t_subs T = None -> t_father T = None ->
  (forall w1 c, grows w w1 -> tidy w1 -> there w1 c -> c ∉ K -> Phi c ({[c]} ∪ K) w1) -> goes (make T) K w Phi.
Proof.
  intros Hs Hf H w1 L1 I1 O1. cbn. set (c := fresh (dom w1.1)). assert (Hc : w1.1 !! c = None) by (apply not_elem_of_dom, is_fresh). set (w2 := (<[c := T]> w1.1, {[c]} ∪ w1.2) : world).
  assert (Hk : forall x, is_Some (w1.1 !! x) -> w2.1 !! x = w1.1 !! x) by (intros x [X HX]; cbn; apply lookup_insert_ne; intros <-; congruence).
  assert (Hne : forall x, is_Some (w1.1 !! x) -> x <> c) by (intros x [X HX] ->; congruence).
  assert (HcP : c ∉ w1.2) by (intros Hp; destruct (proj1 I1 c Hp) as (X & HX & _); congruence).
  assert (G : grows w1 w2). { split; [|intros x Hx Hp; cbn; apply Hne in Hx; set_solver]. intros x X HX. exists X. by rewrite Hk by (by exists X). }
  assert (I2 : tidy w2).
  { destruct I1 as (I1 & I2 & I3). split; [|split].
    - intros x Hx. cbn in Hx. destruct (decide (x = c)) as [->|Hxc]; [exists T; cbn; by rewrite lookup_insert|]. destruct (I1 x) as (X & HX & HfX); [set_solver|]. exists X. by rewrite Hk by (by exists X).
    - intros x X n y HX Hn. cbn in HX. destruct (decide (x = c)) as [->|Hxc]; [rewrite lookup_insert in HX; injection HX as <-; unfold subs_of in Hn; by rewrite Hs in Hn|].
      rewrite lookup_insert_ne in HX by done. destruct (I2 x X n y HX Hn) as [Hy HyP]. rewrite Hk by done. split; [done|]. cbn. apply Hne in Hy. set_solver.
    - intros x X y HX Hy. cbn in HX. destruct (decide (x = c)) as [->|Hxc]; [rewrite lookup_insert in HX; injection HX as <-; congruence|].
      rewrite lookup_insert_ne in HX by done. rewrite Hk by (by eapply I3). by eapply I3. }
  exists w2, ({[c]} ∪ K). split; [done|]. split; [done|]. split; [done|]. split; [cbn; set_solver|]. split; [cbn; set_solver|]. split; [set_solver|]. apply H; [by eapply grows_trans|done| |set_solver].
  cbn. unfold there. cbn. rewrite lookup_insert. by eexists.
Qed.
(** The last assignment to a template that was being made. *)
Lemma goes_finish c f K w (Phi : unit -> gset loc -> world -> Prop) : c ∈ K -> (forall y, f = Some y -> there w y) ->
  (forall w1, grows w w1 -> tidy w1 -> pub w1 c -> Phi tt (K ∖ {[c]}) w1) -> goes (assign c (with_father f)) K w Phi.
Proof.
  intros HcK Hf H w1 L1 I1 O1. assert (HcP : c ∈ w1.2) by set_solver. destruct (proj1 I1 c HcP) as (C & HC & HfC). rewrite HC. set (w2 := (alter (with_father f) c w1.1, w1.2 ∖ {[c]}) : world).
  assert (Ed : forall x, is_Some (w2.1 !! x) <-> is_Some (w1.1 !! x)) by (intros x; cbn; apply lookup_alter_is_Some).
  assert (G : grows w1 w2).
  { split; [|intros x _ Hp; cbn; set_solver]. intros x X HX. cbn. destruct (decide (x = c)) as [->|Hne]; [|rewrite lookup_alter_ne by done; by exists X].
    rewrite lookup_alter, HX. assert (X = C) as -> by congruence. eexists. split; [done|]. cbn. split; [done|]. split; [done|]. rewrite HfC. by intros []. }
  assert (I2 : tidy w2).
  { destruct I1 as (I1 & I2 & I3). split; [|split].
    - intros x Hx. cbn in Hx. destruct (I1 x) as (X & HX & HfX); [set_solver|]. exists X. cbn. rewrite lookup_alter_ne; [done|set_solver].
    - intros x X n y HX Hn. rewrite Ed. cbn in HX. destruct (decide (x = c)) as [->|Hne].
      + rewrite lookup_alter, HC in HX. injection HX as <-. destruct (I2 c C n y HC Hn). split; [done|]. cbn. set_solver.
      + rewrite lookup_alter_ne in HX by done. destruct (I2 x X n y HX Hn). split; [done|]. cbn. set_solver.
    - intros x X y HX Hy. rewrite Ed. cbn in HX. destruct (decide (x = c)) as [->|Hne]; [|rewrite lookup_alter_ne in HX by done; by eapply I3].
      rewrite lookup_alter, HC in HX. injection HX as <-. cbn in Hy. eapply there_grows; [exact L1|]. by apply Hf. }
  exists w2, (K ∖ {[c]}). split; [done|]. split; [done|]. split; [done|]. split; [cbn; set_solver|]. split; [cbn; set_solver|]. split; [set_solver|]. apply H; [by eapply grows_trans|done|].
  split; [rewrite Ed; by exists C|cbn; set_solver].
Qed.

(** ** Many goroutines *)
Section Many.
  Context {A : Type}.
  Definition all_go (w : world) (ps : list (tact A)) (Ks : list (gset loc)) : Prop :=
    tidy w /\ length Ks = length ps /\ (forall i K, Ks !! i = Some K -> K ⊆ w.2) /\ (forall i j K K', i <> j -> Ks !! i = Some K -> Ks !! j = Some K' -> K ## K') /\
    forall i p K, ps !! i = Some p -> Ks !! i = Some K -> goes p K w (fun _ _ _ => True).
  Lemma go_step th P ps Ks th' ps' : all_go (th, P) ps Ks -> tstep (th, ps) (th', ps') -> exists P' Ks', all_go (th', P') ps' Ks'.
  Proof.
    intros (HI & HL & HP & HD & HG) Hs. remember (th, ps) as s eqn:Es. remember (th', ps') as s' eqn:Es'. destruct Hs as [h qs i f k Hi]. injection Es as -> ->. injection Es' as <- <-.
    assert (Hlt : i < length ps) by (by eapply lookup_lt_Some). destruct (lookup_lt_is_Some_2 Ks i) as [K HK]; [lia|].
    destruct (HG i _ K Hi HK (th, P) (grows_refl _) HI (HP i K HK)) as ([th2 P2] & K2 & E & G & I2 & S2 & D1 & D2 & Hk). cbn in *. subst th2. exists P2, (<[i := K2]> Ks).
    split; [done|]. split; [by rewrite !insert_length|]. split; [|split].
    - intros j Kj Hj. destruct (decide (j = i)) as [->|Hne]; [rewrite list_lookup_insert in Hj by lia; by injection Hj as <-|]. rewrite list_lookup_insert_ne in Hj by done.
      pose proof (HP j Kj Hj). pose proof (HD j i Kj K Hne Hj HK). cbn. set_solver.
    - intros a b Ka Kb Hab Ha Hb. destruct (decide (a = i)) as [->|Hai], (decide (b = i)) as [->|Hbi]; [done| | |].
      + rewrite list_lookup_insert in Ha by lia. injection Ha as <-. rewrite list_lookup_insert_ne in Hb by done. pose proof (HP b Kb Hb). pose proof (HD b i Kb K Hbi Hb HK). set_solver.
      + rewrite list_lookup_insert in Hb by lia. injection Hb as <-. rewrite list_lookup_insert_ne in Ha by done. pose proof (HP a Ka Ha). pose proof (HD a i Ka K Hai Ha HK). set_solver.
      + rewrite list_lookup_insert_ne in Ha by done. rewrite list_lookup_insert_ne in Hb by done. by apply (HD a b).
    - intros j q Kj Hq Hj. destruct (decide (j = i)) as [->|Hne].
      + rewrite list_lookup_insert in Hq by done. injection Hq as <-. rewrite list_lookup_insert in Hj by lia. by injection Hj as <-.
      + rewrite list_lookup_insert_ne in Hq by done. rewrite list_lookup_insert_ne in Hj by done. eapply goes_later; [done|exact G|]. by apply (HG j).
  Qed.
  Lemma go_steps th P ps Ks th' ps' : all_go (th, P) ps Ks -> rtc tstep (th, ps) (th', ps') -> exists P' Ks', all_go (th', P') ps' Ks'.
  Proof.
    intros HG H. remember (th, ps) as s eqn:Es. remember (th', ps') as s' eqn:Es'. revert th P ps Ks th' ps' HG Es Es'.
    induction H as [s|s [th1 ps1] s' Hs _ IH]; intros th P ps Ks th' ps' HG Es Es'; [subst s; injection Es' as <- <-; by exists P, Ks|]. subst s.
    destruct (go_step _ _ _ _ _ _ HG Hs) as (P1 & Ks1 & HG1). by eapply (IH th1 P1 ps1 Ks1).
  Qed.
End Many.
