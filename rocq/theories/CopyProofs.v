(** * Goroutines that clone templates: what each of them can rely on (C117). *)
From Verif Require Import GoBase GoStrings DatasetModel LangModel DatasetSpec TemplateModel TemplateSpec RenderSpec RenderProofs6 RenderProofs9 CopyModel CopySpec.

(** The templates, which original each of them was made from, and those that are being made. *)
Record world := World { w_th : theap; w_rho : loc -> loc; w_P : gset loc }.
Definition known (w : world) (y x : loc) : Prop := is_Some (w_th w !! y) /\ w_rho w y = x.
Definition ver (w : world) (y x : loc) : Prop := known w y x /\ y ∉ w_P w.
Definition later (w w' : world) : Prop :=
  (forall x, is_Some (w_th w !! x) -> is_Some (w_th w' !! x) /\ w_rho w' x = w_rho w x) /\
  (forall x X, w_th w !! x = Some X -> x ∉ w_P w -> x ∉ w_P w' /\ exists X', w_th w' !! x = Some X' /\ t_root X' = t_root X /\ t_subs X' = t_subs X) /\
  (forall x X X', w_th w !! x = Some X -> w_th w' !! x = Some X' -> is_Some (t_father X) -> is_Some (t_father X')).
Lemma later_refl w : later w w.
Proof. split; [done|]. split; [|intros; congruence]. intros x X HX Hp. split; [done|]. by exists X. Qed.
Lemma later_trans w1 w2 w3 : later w1 w2 -> later w2 w3 -> later w1 w3.
Proof.
  intros (A1 & A2 & A3) (B1 & B2 & B3). split; [|split].
  - intros x Hx. destruct (A1 x Hx) as [Hx2 E]. destruct (B1 x Hx2) as [Hx3 E']. split; [done|congruence].
  - intros x X HX Hp. destruct (A2 x X HX Hp) as (Hp2 & X2 & HX2 & E1 & E2). destruct (B2 x X2 HX2 Hp2) as (Hp3 & X3 & HX3 & E3 & E4).
    split; [done|]. exists X3. split; [done|]. split; congruence.
  - intros x X X3 HX HX3 Hf. destruct (A1 x) as [[X2 HX2] _]; [by exists X|]. eapply B3; [exact HX2|done|]. by eapply A3.
Qed.
Lemma known_later w w' y x : later w w' -> known w y x -> known w' y x.
Proof. intros (L & _) [Hy Hr]. destruct (L y Hy) as [Hy' Hr']. split; [done|congruence]. Qed.
Lemma ver_later w w' y x : later w w' -> ver w y x -> ver w' y x.
Proof. intros HL [Hk Hp]. split; [by eapply known_later|]. destruct Hk as [[Y HY] _]. by apply (proj1 (proj2 HL) y Y HY Hp). Qed.
Definition right_subs (w : world) (X O : tmpl) : Prop :=
  forall k, match subs_of X !! k, subs_of O !! k with Some y, Some x => ver w y x | None, None => True | _, _ => False end.
Definition right_father (w : world) (f g : option loc) : Prop :=
  match f, g with Some y, Some x => known w y x | None, None => True | _, _ => False end.
Lemma right_subs_later w w' X O : later w w' -> right_subs w X O -> right_subs w' X O.
Proof. intros HL H k. specialize (H k). destruct (subs_of X !! k), (subs_of O !! k); try done. by eapply ver_later. Qed.
Lemma right_father_later w w' f g : later w w' -> right_father w f g -> right_father w' f g.
Proof. intros HL H. destruct f, g; try done. by eapply known_later. Qed.

Section Copies.
  Context (th : theap).
  Definition fine (w : world) (y : loc) (Y : tmpl) : Prop :=
    exists O, th !! w_rho w y = Some O /\ (t_subs Y = None \/ right_subs w Y O) /\ (t_father Y = None \/ right_father w (t_father Y) (t_father O)) /\
      (y ∉ w_P w -> t_root Y = t_root O /\ right_subs w Y O /\ right_father w (t_father Y) (t_father O)).
  Definition inv (w : world) : Prop :=
    (forall x, is_Some (th !! x) -> ver w x x) /\ (forall y Y, w_th w !! y = Some Y -> fine w y Y) /\ (forall y, y ∈ w_P w -> is_Some (w_th w !! y)).
  Lemma fine_later w w' y Y : later w w' -> w_th w !! y = Some Y -> (y ∉ w_P w' -> y ∉ w_P w) -> fine w y Y -> fine w' y Y.
  Proof.
    intros HL HY Hp (O & HO & Hs & Hf & Hrest). exists O. rewrite (proj2 (proj1 HL y ltac:(by exists Y))). split; [done|].
    split; [destruct Hs as [Hs|Hs]; [by left|right; by eapply right_subs_later]|].
    split; [destruct Hf as [Hf|Hf]; [by left|right; by eapply right_father_later]|].
    intros Hy. destruct (Hrest (Hp Hy)) as (R1 & R2 & R3). split; [done|]. split; [by eapply right_subs_later|by eapply right_father_later].
  Qed.
  Lemma inv_later w w' : later w w' -> inv w ->
    (forall y Y, w_th w' !! y = Some Y -> (w_th w !! y = Some Y /\ (y ∉ w_P w' -> y ∉ w_P w)) \/ fine w' y Y) ->
    (forall y, y ∈ w_P w' -> y ∈ w_P w \/ is_Some (w_th w' !! y)) -> inv w'.
  Proof.
    intros HL (I1 & I2 & I3) H H3. split; [intros x Hx; by eapply ver_later, I1|]. split; [|intros y Hy; destruct (H3 y Hy) as [Hy'|]; [by apply HL, I3|done]].
    intros y Y HY. destruct (H y Y HY) as [[HY0 Hp]|Hf]; [|done].
    eapply fine_later; [done|done|done|]. by apply I2.
  Qed.
  Lemma known_dom w y x : inv w -> known w y x -> is_Some (th !! x).
  Proof. intros (_ & I & _) [[Y HY] <-]. destruct (I y Y HY) as (O & HO & _). by exists O. Qed.
  Definition world0 : world := World th id ∅.
  Lemma inv0 : closed th -> inv world0.
  Proof.
    intros Hclosed.
    assert (Hk : forall x, is_Some (th !! x) -> ver world0 x x) by (intros x Hx; split; [by split|]; cbn; set_solver).
    assert (Hf : forall y Y, th !! y = Some Y -> right_father world0 (t_father Y) (t_father Y)).
    { intros y Y HY. unfold right_father. destruct (t_father Y) as [f|] eqn:E; [|done]. apply Hk. by eapply (proj2 Hclosed). }
    assert (Hs : forall y Y, th !! y = Some Y -> right_subs world0 Y Y).
    { intros y Y HY k. destruct (subs_of Y !! k) as [x|] eqn:E; [|done]. apply Hk. by eapply (proj1 Hclosed). }
    split; [done|]. split; [|intros y Hy; cbn in Hy; set_solver]. intros y Y HY. exists Y. split; [done|]. split; [right; by eapply Hs|]. split; [right; by eapply Hf|].
    intros _. split; [done|]. split; [by eapply Hs|by eapply Hf].
  Qed.

  (** ** A goroutine is safe: its accesses keep the invariant and leave alone what others are making *)
  Definition owns (K : gmap loc tmpl) (w : world) : Prop := forall c C, K !! c = Some C -> w_th w !! c = Some C /\ c ∈ w_P w.
  Definition moves (K K' : gmap loc tmpl) (w w' : world) : Prop :=
    later w w' /\ inv w' /\ owns K' w' /\ w_P w' = (w_P w ∖ dom K) ∪ dom K' /\ dom K' ## (w_P w ∖ dom K) /\
    (forall y, y ∈ w_P w -> y ∉ dom K -> w_th w' !! y = w_th w !! y).
  Fixpoint safe {A} (Ef Eo : Prop) (p : tact A) (K : gmap loc tmpl) (w : world) (Phi : A -> gmap loc tmpl -> world -> Prop) : Prop :=
    match p with
    | TRet a => Phi a K w
    | TFail => Ef /\ K = ∅
    | TOut => Eo /\ K = ∅
    | TAct f k => forall w1, later w w1 -> inv w1 -> owns K w1 -> exists w2 K2, w_th w2 = f (w_th w1) /\ moves K K2 w1 w2 /\ safe Ef Eo (k (w_th w1)) K2 w2 Phi
    end.
  Lemma safe_bind {A C} Ef Eo (p : tact A) (g : A -> tact C) K w (Phi : C -> gmap loc tmpl -> world -> Prop) :
    safe Ef Eo p K w (fun a K' w' => safe Ef Eo (g a) K' w' Phi) -> safe Ef Eo (tbind p g) K w Phi.
  Proof.
    revert K w. induction p as [a| | |f k IH]; intros K w H; [done..|]. cbn in *. intros w1 L1 I1 O1. destruct (H w1 L1 I1 O1) as (w2 & K2 & E & M & S).
    exists w2, K2. split; [done|]. split; [done|]. by apply IH.
  Qed.
  Lemma safe_weaken {A} (Ef Eo Ef' Eo' : Prop) (p : tact A) K w (Phi Psi : A -> gmap loc tmpl -> world -> Prop) : (Ef -> Ef') -> (Eo -> Eo') ->
    (forall a K' w', later w w' -> Phi a K' w' -> Psi a K' w') -> safe Ef Eo p K w Phi -> safe Ef' Eo' p K w Psi.
  Proof.
    intros Hf Ho. revert K w. induction p as [a| | |f k IH]; intros K w HP H; cbn in *; [apply HP; [apply later_refl|done]|naive_solver|naive_solver|].
    intros w1 L1 I1 O1. destruct (H w1 L1 I1 O1) as (w2 & K2 & E & M & S). exists w2, K2. split; [done|]. split; [done|]. apply IH; [|done].
    intros a K' w' L' HPhi. apply HP; [|done]. eapply later_trans; [exact L1|]. eapply later_trans; [apply M|done].
  Qed.
  Lemma safe_later {A} Ef Eo (p : tact A) K w w' (Phi : A -> gmap loc tmpl -> world -> Prop) :
    (forall a K' u u', later u u' -> Phi a K' u -> Phi a K' u') -> later w w' -> safe Ef Eo p K w Phi -> safe Ef Eo p K w' Phi.
  Proof.
    intros HP HL. destruct p as [a| | |f k]; cbn; [by apply HP|done|done|]. intros H w1 L1 I1 O1. apply H; [|done|done]. by eapply later_trans.
  Qed.

  (** ** The accesses *)
  Lemma moves_refl K w : inv w -> owns K w -> moves K K w w.
  Proof.
    intros HI HO. split; [apply later_refl|]. split; [done|]. split; [done|]. split; [|split; [set_solver|done]].
    apply set_eq. intros x. split; [intros Hx; destruct (decide (x ∈ dom K)); set_solver|]. intros [Hx|Hx]%elem_of_union; [set_solver|].
    apply elem_of_dom in Hx as [C HC]. by apply (HO x C).
  Qed.
  (** Reading. *)
  Lemma safe_read {A} Ef Eo (f : theap -> tact A) K w (Phi : A -> gmap loc tmpl -> world -> Prop) :
    (forall w1, later w w1 -> inv w1 -> owns K w1 -> safe Ef Eo (f (w_th w1)) K w1 Phi) -> safe Ef Eo (TAct (fun h => h) f) K w Phi.
  Proof. intros H w1 L1 I1 O1. exists w1, K. split; [done|]. split; [by apply moves_refl|]. by apply H. Qed.
  Lemma safe_field {A} Ef Eo t (f : tmpl -> A) K w x (Phi : A -> gmap loc tmpl -> world -> Prop) : known w t x ->
    (forall w1 T, later w w1 -> inv w1 -> owns K w1 -> w_th w1 !! t = Some T -> Phi (f T) K w1) -> safe Ef Eo (field t f) K w Phi.
  Proof.
    intros Hk H. apply safe_read. intros w1 L1 I1 O1. destruct (known_later _ _ _ _ L1 Hk) as [[T HT] _]. rewrite HT. cbn. by eapply H.
  Qed.
  (** A new template. *)
  Lemma safe_make Ef Eo T t K w (Phi : loc -> gmap loc tmpl -> world -> Prop) : t_root T = None -> t_subs T = None -> t_father T = None -> is_Some (th !! t) ->
    (forall w1 c, later w w1 -> inv w1 -> K !! c = None -> owns (<[c := T]> K) w1 -> w_rho w1 c = t -> Phi c (<[c := T]> K) w1) ->
    safe Ef Eo (make T) K w Phi.
  Proof.
    intros Hr Hs Hf [O HO] H w1 L1 I1 O1. cbn. set (c := fresh (dom (w_th w1))). assert (Hc : w_th w1 !! c = None) by (apply not_elem_of_dom, is_fresh).
    set (w2 := World (<[c := T]> (w_th w1)) (fun x => if decide (x = c) then t else w_rho w1 x) (w_P w1 ∪ {[c]})). exists w2, (<[c := T]> K).
    assert (HKc : K !! c = None). { destruct (K !! c) as [C|] eqn:E; [|done]. destruct (O1 c C E) as [E' _]. congruence. }
    assert (Hne : forall y, is_Some (w_th w1 !! y) -> y <> c) by (intros y [Y HY] ->; congruence).
    assert (HcP : forall y, y ∈ w_P w1 -> y ∈ dom K -> y <> c) by (intros y _ [C HC]%elem_of_dom ->; congruence).
    assert (L2 : later w1 w2).
    { split; [|split].
      - intros y Hy. cbn. rewrite decide_False by (by apply Hne). split; [|done]. rewrite lookup_insert_ne; [done|]. by apply not_eq_sym, Hne.
      - intros y Y HY Hp. cbn. assert (y <> c) by (apply Hne; by exists Y). split; [set_solver|]. exists Y. by rewrite lookup_insert_ne.
      - intros y Y Y' HY HY' Hy. cbn in HY'. rewrite lookup_insert_ne in HY' by (apply not_eq_sym, Hne; by exists Y). congruence. }
    assert (HI2 : inv w2).
    { eapply inv_later; [exact L2|done| |].
      + intros y Y HY. cbn in HY. destruct (decide (y = c)) as [->|Hyc].
        * rewrite lookup_insert in HY. injection HY as <-. right. exists O. cbn. rewrite decide_True by done. split; [done|]. split; [by left|]. split; [by left|].
        intros Hy. destruct Hy. set_solver.
        * rewrite lookup_insert_ne in HY by done. left. split; [done|]. cbn. set_solver.
      + intros y Hy. cbn in Hy |- *. apply elem_of_union in Hy as [Hy|Hy]; [by left|]. right. apply elem_of_singleton in Hy as ->. rewrite lookup_insert. by eexists. }
    assert (HO2 : owns (<[c := T]> K) w2).
    { intros y Y HY. cbn. destruct (decide (y = c)) as [->|Hyc]; [rewrite lookup_insert in HY |- *; split; [done|set_solver]|].
      rewrite lookup_insert_ne in HY |- * by done. destruct (O1 y Y HY). split; [done|set_solver]. }
    assert (HcP1 : c ∉ w_P w1) by (intros Hp; destruct (proj2 (proj2 I1) c Hp) as [C HC]; congruence).
    split; [done|]. split.
    - split; [done|]. split; [done|]. split; [done|]. cbn. split; [|split].
      + rewrite dom_insert_L. apply set_eq. intros y. split.
        * intros [Hy|Hy]%elem_of_union; [|set_solver]. destruct (decide (y ∈ dom K)); set_solver.
        * intros [Hy|[Hy|Hy]%elem_of_union]%elem_of_union; [set_solver|set_solver|]. apply elem_of_dom in Hy as [C HC]. destruct (O1 y C HC). set_solver.
      + rewrite dom_insert_L. set_solver.
      + intros y Hy Hk. rewrite lookup_insert_ne; [done|]. intros <-. done.
    - apply H; [by eapply later_trans|done|done|done|]. cbn. by rewrite decide_True.
  Qed.
  (** A field of a template that the goroutine is making. *)
  Lemma safe_own Ef Eo c f K w C O (Phi : unit -> gmap loc tmpl -> world -> Prop) : K !! c = Some C -> known w c (w_rho w c) -> th !! w_rho w c = Some O ->
    (is_Some (t_father C) -> is_Some (t_father (f C))) ->
    (t_subs (f C) = None \/ right_subs w (f C) O) -> (t_father (f C) = None \/ right_father w (t_father (f C)) (t_father O)) ->
    (forall w1, later w w1 -> inv w1 -> owns (<[c := f C]> K) w1 -> Phi tt (<[c := f C]> K) w1) -> safe Ef Eo (assign c f) K w Phi.
  Proof.
    intros HK Hk HO Hff Hs Hf H w1 L1 I1 O1. destruct (O1 c C HK) as [HC HP]. cbn. rewrite HC.
    set (w2 := World (alter f c (w_th w1)) (w_rho w1) (w_P w1)). exists w2, (<[c := f C]> K).
    assert (L2 : later w1 w2).
    { split; [|split]; cbn.
      - intros y Hy. split; [by apply is_Some_alter|done].
      - intros y Y HY Hp. split; [done|]. exists Y. rewrite lookup_alter_ne; [done|]. intros <-. done.
      - intros y Y Y' HY HY' Hy. destruct (decide (y = c)) as [->|Hne]; [|rewrite lookup_alter_ne in HY' by done; congruence].
        rewrite HC in HY. injection HY as <-. rewrite lookup_alter, HC in HY'. injection HY' as <-. by apply Hff. }
    assert (L3 : later w w2) by (by eapply later_trans).
    assert (Er : w_rho w2 c = w_rho w c) by (apply L3, Hk).
    assert (HI2 : inv w2).
    { eapply inv_later; [exact L2|done| |].
      - intros y Y HY. cbn in HY. destruct (decide (y = c)) as [->|Hne]; [|rewrite lookup_alter_ne in HY by done; by left].
        rewrite lookup_alter, HC in HY. injection HY as <-. right. exists O. rewrite Er. split; [done|].
        split; [destruct Hs; [by left|right; by eapply right_subs_later]|]. split; [destruct Hf; [by left|right; by eapply right_father_later]|].
        intros Hn. destruct Hn. exact HP.
      - intros y Hy. by left. }
    assert (HO2 : owns (<[c := f C]> K) w2).
    { intros y Y HY. cbn. destruct (decide (y = c)) as [->|Hne].
      - rewrite lookup_insert in HY. injection HY as <-. by rewrite lookup_alter, HC.
      - rewrite lookup_insert_ne in HY by done. rewrite lookup_alter_ne by done. by apply O1. }
    split; [done|]. split; [|by apply H].
    split; [done|]. split; [done|]. split; [done|]. cbn. rewrite (dom_insert_lookup_L K c (f C)) by (by exists C). destruct (moves_refl K w1 I1 O1) as (_ & _ & _ & M1 & M2 & _).
    split; [done|]. split; [done|]. intros y Hy Hn. rewrite lookup_alter_ne; [done|]. intros <-. apply Hn, elem_of_dom. by exists C.
  Qed.
  (** The last assignment. *)
  Lemma safe_finish Ef Eo c f K w C O (Phi : unit -> gmap loc tmpl -> world -> Prop) : K !! c = Some C -> known w c (w_rho w c) -> th !! w_rho w c = Some O ->
    (is_Some (t_father C) -> is_Some (t_father (f C))) -> t_root (f C) = t_root O ->
    right_subs w (f C) O -> right_father w (t_father (f C)) (t_father O) ->
    (forall w1, later w w1 -> inv w1 -> owns (delete c K) w1 -> ver w1 c (w_rho w c) -> Phi tt (delete c K) w1) -> safe Ef Eo (assign c f) K w Phi.
  Proof.
    intros HK Hk HO Hff Hr Hs Hf H w1 L1 I1 O1. destruct (O1 c C HK) as [HC HP]. cbn. rewrite HC.
    set (w2 := World (alter f c (w_th w1)) (w_rho w1) (w_P w1 ∖ {[c]})). exists w2, (delete c K).
    assert (L2 : later w1 w2).
    { split; [|split]; cbn.
      - intros y Hy. split; [by apply is_Some_alter|done].
      - intros y Y HY Hp. split; [set_solver|]. exists Y. rewrite lookup_alter_ne; [done|]. intros <-. done.
      - intros y Y Y' HY HY' Hy. destruct (decide (y = c)) as [->|Hne]; [|rewrite lookup_alter_ne in HY' by done; congruence].
        rewrite HC in HY. injection HY as <-. rewrite lookup_alter, HC in HY'. injection HY' as <-. by apply Hff. }
    assert (L3 : later w w2) by (by eapply later_trans).
    assert (Er : w_rho w2 c = w_rho w c) by (apply L3, Hk).
    assert (HI2 : inv w2).
    { eapply inv_later; [exact L2|done| |].
      - intros y Y HY. cbn in HY. destruct (decide (y = c)) as [->|Hne]; [|rewrite lookup_alter_ne in HY by done; left; split; [done|]; cbn; set_solver].
        rewrite lookup_alter, HC in HY. injection HY as <-. right. exists O. rewrite Er. split; [done|].
        split; [right; by eapply right_subs_later|]. split; [right; by eapply right_father_later|].
        intros _. split; [done|]. split; [by eapply right_subs_later|by eapply right_father_later].
      - intros y Hy. left. cbn in Hy. set_solver. }
    assert (HO2 : owns (delete c K) w2).
    { intros y Y HY. cbn. apply lookup_delete_Some in HY as [Hne HY]. rewrite lookup_alter_ne by done. destruct (O1 y Y HY). split; [done|set_solver]. }
    assert (HcK : c ∈ dom K) by (apply elem_of_dom; by exists C).
    split; [done|]. split; [|apply H; [done|done|done|]].
    - split; [done|]. split; [done|]. split; [done|]. cbn. rewrite dom_delete_L. split; [|split].
      + apply set_eq. intros y. split; [intros Hy; destruct (decide (y ∈ dom K)); set_solver|]. intros [Hy|Hy]%elem_of_union; [set_solver|].
        apply elem_of_difference in Hy as [Hy Hyc]. apply elem_of_dom in Hy as [Y HY]. destruct (O1 y Y HY). set_solver.
      + set_solver.
      + intros y Hy Hn. rewrite lookup_alter_ne; [done|]. intros <-. done.
    - split; [by eapply known_later|]. cbn. set_solver.
  Qed.
  (** The Father of a sub template of the template that is copied. *)
  Lemma safe_tie Ef Eo x c K w x0 X0 (Phi : unit -> gmap loc tmpl -> world -> Prop) : ver w x x0 -> th !! x0 = Some X0 ->
    known w c (w_rho w c) -> t_father X0 = Some (w_rho w c) ->
    (forall w1, later w w1 -> inv w1 -> owns K w1 -> Phi tt K w1) -> safe Ef Eo (assign x (with_father (Some c))) K w Phi.
  Proof.
    intros Hv HX0 Hk Hf H w1 L1 I1 O1. pose proof (ver_later _ _ _ _ L1 Hv) as [[[X HX] Hr] Hp]. cbn. rewrite HX.
    set (w2 := World (alter (with_father (Some c)) x (w_th w1)) (w_rho w1) (w_P w1)). exists w2, K.
    assert (L2 : later w1 w2).
    { split; [|split]; cbn.
      - intros y Hy. split; [by apply is_Some_alter|done].
      - intros y Y HY Hpy. split; [done|]. destruct (decide (y = x)) as [->|Hne]; [|exists Y; by rewrite lookup_alter_ne].
        rewrite lookup_alter, HY. eexists. split; [done|]. done.
      - intros y Y Y' HY HY' Hy. destruct (decide (y = x)) as [->|Hne]; [|rewrite lookup_alter_ne in HY' by done; congruence].
        rewrite lookup_alter, HY in HY'. injection HY' as <-. by eexists. }
    assert (HI2 : inv w2).
    { eapply inv_later; [exact L2|done| |].
      - intros y Y HY. cbn in HY. destruct (decide (y = x)) as [->|Hne]; [|rewrite lookup_alter_ne in HY by done; by left].
        rewrite lookup_alter, HX in HY. injection HY as <-. right. destruct (proj1 (proj2 I1) x X HX) as (O & HO & _ & _ & Hrest).
        destruct (Hrest Hp) as (R1 & R2 & R3). rewrite Hr in HO. assert (O = X0) as -> by congruence.
        assert (RF : right_father w2 (Some c) (t_father X0)).
        { rewrite Hf. cbn [right_father]. eapply known_later; [|exact Hk]. by eapply later_trans. }
        assert (RS : right_subs w2 (with_father (Some c) X) X0) by (by eapply (right_subs_later w1 w2 X)).
        exists X0. cbn [w2 w_rho]. rewrite Hr. split; [done|]. split; [by right|]. split; [by right|]. by intros _.
      - intros y Hy. by left. }
    assert (HO2 : owns K w2).
    { intros y Y HY. cbn. destruct (O1 y Y HY) as [HY1 HP1]. rewrite lookup_alter_ne; [done|]. intros <-. done. }
    split; [done|]. split; [|apply H; [by eapply later_trans|done|done]].
    split; [done|]. split; [done|]. split; [done|]. destruct (moves_refl K w1 I1 O1) as (_ & _ & _ & M1 & M2 & _). split; [done|]. split; [done|].
    intros y Hy Hn. cbn. rewrite lookup_alter_ne; [done|]. intros <-. done.
  Qed.
  (** What is known about a finished template. *)
  Lemma ver_right w y x Y : inv w -> ver w y x -> w_th w !! y = Some Y ->
    exists O, th !! x = Some O /\ t_root Y = t_root O /\ right_subs w Y O /\ right_father w (t_father Y) (t_father O).
  Proof. intros (_ & I & _) [[_ <-] Hp] HY. destruct (I y Y HY) as (O & HO & _ & _ & Hrest). destruct (Hrest Hp) as (R1 & R2 & R3). by exists O. Qed.
  Lemma ver_const w w' y x Y Y' : later w w' -> ver w y x -> w_th w !! y = Some Y -> w_th w' !! y = Some Y' -> t_root Y' = t_root Y /\ t_subs Y' = t_subs Y.
  Proof. intros (_ & L & _) [_ Hp] HY HY'. destruct (L y Y HY Hp) as (_ & X & HX & E1 & E2). assert (X = Y') as -> by congruence. done. Qed.

  (** ** Clone *)
  Section Clone.
    Context (Hcons : consistent th) (tord : theap -> gmap bytes loc -> list (bytes * loc)) (Hord : any_order tord) (Ef Eo : Prop).
    Definition same_subs (w : world) (m : gmap bytes loc) (O : tmpl) (k : bytes) : Prop :=
      match m !! k, subs_of O !! k with Some y, Some x => ver w y x | None, None => True | _, _ => False end.
    Definition clones_ok (n : nat) : Prop := forall y x K w, ver w y x -> fits th n x ->
      safe Ef Eo (t_clone tord n y) K w (fun c K' w' => K' = K /\ ver w' c x).
    Lemma same_subs_later w w' m O k : later w w' -> same_subs w m O k -> same_subs w' m O k.
    Proof. unfold same_subs. intros HL. destruct (m !! k), (subs_of O !! k); try done. by apply ver_later. Qed.
    Lemma t_clone_subs_ok n t O : clones_ok n -> th !! t = Some O -> (forall k x, subs_of O !! k = Some x -> fits th n x) ->
      forall l c m' K w, known w c t -> NoDup l.*1 ->
        (forall k y, (k, y) ∈ l -> exists x, subs_of O !! k = Some x /\ ver w y x) ->
        (forall k, k ∉ l.*1 -> same_subs w m' O k) ->
        safe Ef Eo (t_clone_subs (t_clone tord n) l c m') K w (fun m2 K' w' => K' = K /\ forall k, same_subs w' m2 O k).
    Proof.
      intros IH HO Hfit l. induction l as [|[k y] l IHl]; intros c m' K w Hc Hnd Hl Hm.
      - cbn. split; [done|]. intros k. apply Hm. by intros Hk%elem_of_nil.
      - cbn [t_clone_subs]. destruct (Hl k y) as (x & Hx & Hv); [by left|]. destruct (Hcons t O k x HO Hx) as (X & HX & HfX). apply safe_bind.
        eapply safe_weaken; [done|done| |apply IH; [exact Hv|by eapply Hfit]].
        intros y' K1 w1 L1 (-> & Hv1). apply safe_bind.
        assert (Hc1 : known w1 c t) by (by eapply known_later). assert (Erho : w_rho w1 c = t) by apply Hc1.
        eapply (safe_tie _ _ y c K w1 x X); [by eapply ver_later|done|by rewrite Erho|by rewrite Erho|].
        intros w2 L2 HI2 HK2. cbn in Hnd. apply NoDup_cons in Hnd as [Hk Hnd].
        assert (L : later w w2) by (by eapply later_trans).
        eapply safe_weaken; [done|done| |apply IHl; [by eapply known_later|done| |]].
        + intros m2 K' w' _ H. exact H.
        + intros k0 y0 Hin. destruct (Hl k0 y0) as (x0 & Hx0 & Hv0); [by right|]. exists x0. split; [done|]. by eapply ver_later.
        + intros k0 Hk0. destruct (decide (k0 = k)) as [->|Hne].
          * unfold same_subs. rewrite lookup_insert, Hx. exact (ver_later _ _ _ _ L2 Hv1).
          * assert (Hs : same_subs w m' O k0) by (apply Hm; cbn; rewrite not_elem_of_cons; done). eapply same_subs_later in Hs; [|exact L].
            unfold same_subs in *. by rewrite lookup_insert_ne.
    Qed.
    Lemma t_clone_ok n : clones_ok n.
    Proof.
      induction n as [|n IH]; intros y x K w Hv Hfit; [done|]. destruct Hfit as (O & HO & Hfit). cbn [t_clone].
      assert (Hky : known w y x) by apply Hv.
      apply safe_bind. eapply safe_field; [exact Hky|]. intros w1 Y1 L1 I1 K1 HY1.
      apply safe_bind. eapply (safe_make _ _ _ x); [done..|by exists O|]. intros w2 c L2 I2 HKc K2 Erho.
      set (C0 := Tmpl (t_name Y1) None None None) in *.
      assert (Hc2 : known w2 c x). { split; [|done]. destruct (K2 c C0) as [HC _]; [apply lookup_insert|]. by eexists. }
      assert (Hv2 : ver w2 y x) by (eapply ver_later; [|exact Hv]; by eapply later_trans).
      apply safe_bind. eapply safe_field; [apply Hv2|]. intros w3 Y3 L3 I3 K3 HY3.
      assert (Hv3 : ver w3 y x) by (by eapply ver_later). assert (Hc3 : known w3 c x) by (by eapply known_later).
      destruct (ver_right w3 y x Y3 I3 Hv3 HY3) as (O' & HO' & Hroot & Hsubs & _). assert (O' = O) as -> by congruence.
      assert (Erc : forall u, known u c x -> w_rho u c = x) by (intros u Hu; apply Hu).
      (* Root *)
      apply safe_bind. eapply (safe_weaken Ef Eo Ef Eo _ _ _ (fun _ K' w' => exists C, K' = <[c := C]> K /\ t_root C = t_root O /\ t_subs C = None /\ t_father C = None)); [done|done| |].
      2:{ destruct (t_root Y3) as [ps|] eqn:Eps.
          - apply safe_bind. eapply safe_field; [apply Hv3|]. intros w4 Y4 L4 I4 K4 HY4.
            destruct (ver_const w3 w4 y x Y3 Y4 L4 Hv3 HY3 HY4) as [-> _]. rewrite Eps.
            assert (Hc4 : known w4 c x) by (by eapply known_later).
            eapply (safe_own _ _ c (with_root (Some ps)) _ w4 C0 O); [apply lookup_insert|by rewrite Erc|by rewrite Erc|done|by left|by left|].
            intros w5 L5 I5 K5. rewrite insert_insert in K5 |- *. eexists. split; [done|]. cbn. split; [congruence|]. done.
          - cbn. exists C0. cbn. split; [done|]. split; [congruence|]. done. }
      intros [] Ka w4 L4 (C & -> & HrC & HsC & HfC).
      assert (Hv4 : ver w4 y x) by (by eapply ver_later).
      apply safe_bind. eapply safe_field; [apply Hv4|]. intros w5 Y5 L5 I5 K5 HY5.
      assert (Hv5 : ver w5 y x) by (by eapply ver_later).
      destruct (ver_right w5 y x Y5 I5 Hv5 HY5) as (O' & HO5 & _ & Hsubs5 & _). assert (O' = O) as -> by congruence.
      (* SubTemplates *)
      apply safe_bind. eapply (safe_weaken Ef Eo Ef Eo _ _ _ (fun _ K' w' => exists C, K' = <[c := C]> K /\ t_root C = t_root O /\ right_subs w' C O /\ t_father C = None)); [done|done| |].
      2:{ destruct (t_subs Y5) as [m|] eqn:Em.
          - apply safe_bind. apply safe_read. intros w6 L6 I6 K6. pose proof (ver_later _ _ _ _ L6 Hv5) as Hv6. destruct (proj1 (proj1 Hv6)) as [Y6 HY6]. rewrite HY6. cbn [safe].
            destruct (ver_const w5 w6 y x Y5 Y6 L6 Hv5 HY5 HY6) as [_ ->]. rewrite Em.
            assert (Hc6 : known w6 c x). { eapply known_later; [|exact Hc3]. do 2 (eapply later_trans; [eassumption|]). done. }
            assert (Hin : forall k z, (k, z) ∈ tord (w_th w6) m <-> m !! k = Some z) by (intros k z; rewrite (Hord (w_th w6) m); apply elem_of_map_to_list).
            assert (Hsm : forall k, same_subs w6 m O k).
            { intros k. apply (same_subs_later w5); [done|]. unfold same_subs. specialize (Hsubs5 k). unfold subs_of in Hsubs5 at 1. by rewrite Em in Hsubs5. }
            apply safe_bind. eapply safe_weaken; [done|done| |eapply (t_clone_subs_ok n x O IH HO Hfit (tord (w_th w6) m) c ∅ _ w6 Hc6)].
            + intros m2 K' w7 L7 (-> & Hs7). assert (Hc7 : known w7 c x) by (by eapply known_later).
              assert (Hrs : right_subs w7 (with_subs (Some m2) C) O) by exact Hs7.
              eapply (safe_own _ _ c (with_subs (Some m2)) _ w7 C O); [apply lookup_insert|by rewrite Erc|by rewrite Erc|done|by right|by left|].
              intros w8 L8 I8 K8. rewrite insert_insert in K8 |- *. eexists. split; [done|]. cbn. split; [done|]. split; [by eapply right_subs_later|]. done.
            + rewrite (Hord (w_th w6) m). apply NoDup_fst_map_to_list.
            + intros k z Hkz. apply Hin in Hkz. specialize (Hsm k). unfold same_subs in Hsm. rewrite Hkz in Hsm. destruct (subs_of O !! k) as [x0|]; [|done]. by exists x0.
            + intros k Hk. specialize (Hsm k). unfold same_subs in *. rewrite lookup_empty. destruct (m !! k) as [z|] eqn:Ez; [|done].
              destruct Hk. apply elem_of_list_fmap. exists (k, z). split; [done|]. by apply Hin.
          - cbn. exists C. split; [done|]. split; [done|]. split; [|done]. intros k. specialize (Hsubs5 k). unfold subs_of in Hsubs5 at 1. rewrite Em in Hsubs5.
            unfold subs_of at 1. by rewrite HsC. }
      intros [] Ka w6 L6 (C' & -> & HrC' & HsC' & HfC').
      assert (Hv6 : ver w6 y x) by (by eapply ver_later).
      assert (Hc6 : known w6 c x). { eapply known_later; [|exact Hc3]. do 2 (eapply later_trans; [eassumption|]). done. }
      apply safe_bind. eapply safe_field; [apply Hv6|]. intros w7 Y7 L7 I7 K7 HY7.
      assert (Hv7 : ver w7 y x) by (by eapply ver_later). assert (Hc7 : known w7 c x) by (by eapply known_later).
      destruct (ver_right w7 y x Y7 I7 Hv7 HY7) as (O' & HO7 & _ & _ & Hfa). assert (O' = O) as -> by congruence.
      apply safe_bind.
      eapply (safe_finish _ _ c (with_father (t_father Y7)) _ w7 C' O); [apply lookup_insert|by rewrite Erc|by rewrite Erc|by rewrite HfC'; intros []|done| |exact Hfa|].
      { by eapply (right_subs_later w6 w7 C'). }
      intros w8 L8 I8 K8 Hv8. rewrite delete_insert in K8 |- * by done. cbn. rewrite (Erc w7 Hc7) in Hv8. done.
    Qed.
  End Clone.
End Copies.
