(** * Rendering with free fields (C102): templates. *)
From Verif Require Import GoBase GoStrings GoStringsProofs DatasetModel LangModel DatasetSpec DatasetProofs DatasetProofs2 DatasetProofs3 DatasetProofs4
  TemplateModel TemplateSpec RenderSpec RenderProofs5 HoleSpec HoleProofs.
Local Open Scope Z_scope.

Lemma fill_app F h a b : fill F h (a ++ b) = fill F h a ++ fill F h b.
Proof. unfold fill. by rewrite map_app, concat_app. Qed.
Section Holes.
  Context (kind : bytes -> role) (Hpr : proper kind) (F : golib) (ord : heap -> gmap bytes value -> list (bytes * value)) (Hord : order_ok ord).
  Definition same_fields (h h1 : heap) : Prop := forall x k, kind k = Free -> field F h1 x k = field F h x k.
  Lemma variant_left h h' : variant kind h h' -> variant kind h h.
  Proof.
    intros Hv l. destruct (Hv l) as [m m' Hm|o Ho]; [|by constructor]. constructor. intros k. destruct (Hm k) as [v v' Hf|]; constructor.
    unfold fits in *. destruct (kind k); naive_solver.
  Qed.
  Lemma counts_variant h d i h1 h' : counts h d i h1 -> variant kind h h' -> exists h1', counts h' d i h1' /\ variant kind h1 h1' /\ same_fields h' h1'.
  Proof.
    intros (x & m & Hi & ->) Hv. destruct (variant_inside kind h h' Hv d x m Hi) as (m' & Hi' & Ex' & Hm).
    assert (Ex : h !! x = Some (ODs m)) by (clear -Hi; induction Hi; done). destruct Hpr as [Hc _].
    eexists. split; [exists x, m'; split; [done|reflexivity]|]. set (w := VInt KInt (Z.of_nat i + 1)). split.
    - assert (Hds : forall l, dataset_at h l -> dataset_at (<[x:=ODs (<[B ".counter":=w]> m)]> h) l).
      { intros l Hl. destruct (decide (l = x)) as [->|Hne]; [left; eexists; apply lookup_insert|]. destruct Hl as [[? E]|[? E]]; [left|right]; eexists; rewrite lookup_insert_ne by done; exact E. }
      assert (Hfit : forall k v v', fits kind h k v v' -> fits kind (<[x:=ODs (<[B ".counter":=w]> m)]> h) k v v').
      { unfold fits. intros k v v'. destruct (kind k); naive_solver. }
      intros l. destruct (decide (l = x)) as [->|Hne].
      + rewrite !lookup_insert. constructor. intros k. destruct (decide (k = B ".counter")) as [->|Hk].
        * rewrite !lookup_insert. constructor. unfold fits. by rewrite Hc.
        * rewrite !lookup_insert_ne by done. destruct (Hm k); constructor. by apply Hfit.
      + rewrite !lookup_insert_ne by done. destruct (Hv l) as [m1 m1' Hm1|o Ho]; [|by constructor]. constructor. intros k. destruct (Hm1 k); constructor. by apply Hfit.
    - intros y k Hk. unfold field. destruct (decide (y = x)) as [->|Hne]; [|by rewrite lookup_insert_ne].
      rewrite lookup_insert, Ex'. rewrite lookup_insert_ne; [done|]. intros <-. congruence.
  Qed.

  Context (V : bytes -> Prop).
  Definition free_piece (p : piece) : Prop := match p with Lit _ => True | Hole _ k => kind k = Free /\ V k end.
  Lemma fill_same h h1 ps : same_fields h h1 -> Forall free_piece ps -> fill F h1 ps = fill F h ps.
  Proof.
    intros Hs. induction 1 as [|p ps Hp _ IH]; [done|]. unfold fill in *. simpl. rewrite IH. f_equal. destruct p as [s|x k]; [done|]. by apply Hs, Hp.
  Qed.

  (** A text with holes that is right for every variant. *)
  Definition good (R : heap -> heap -> bytes -> Prop) (h h1 : heap) (out : bytes) : Prop :=
    variant kind h h -> exists ps, Forall free_piece ps /\ out = fill F h ps /\ same_fields h h1 /\
      forall h', variant kind h h' -> exists h1', R h' h1' (fill F h' ps) /\ variant kind h1 h1' /\ same_fields h' h1'.
  Lemma good_after R h h1 out : good R h h1 out -> variant kind h h -> variant kind h1 h1.
  Proof. intros H Hk. destruct (H Hk) as (ps & _ & _ & _ & K). destruct (K h Hk) as (h1' & _ & Hv & _). by eapply variant_left. Qed.
  Lemma good_map (R Q : heap -> heap -> bytes -> Prop) h h1 out : (forall h' h1' o, variant kind h h' -> variant kind h1 h1' -> R h' h1' o -> Q h' h1' o) -> good R h h1 out -> good Q h h1 out.
  Proof.
    intros Hi H Hk. destruct (H Hk) as (ps & H1 & H2 & H3 & H4). exists ps. split; [done|]. split; [done|]. split; [done|]. intros h' Hv.
    destruct (H4 h' Hv) as (h1' & H5 & H6 & H7). exists h1'. eauto.
  Qed.
  Lemma good_lit (R : heap -> heap -> bytes -> Prop) h out : (forall h', variant kind h h' -> R h' h' out) -> good R h h out.
  Proof.
    intros H Hk. exists [Lit out]. split; [by repeat constructor|]. unfold fill. simpl. rewrite app_nil_r. split; [done|]. split; [done|].
    intros h' Hv. exists h'. rewrite ?app_nil_r. split; [by apply H|]. done.
  Qed.
  Lemma good_app (R Q T : heap -> heap -> bytes -> Prop) h h1 h2 a b : good R h h1 a -> good Q h1 h2 b ->
    (forall h' h1' h2' a' b', R h' h1' a' -> Q h1' h2' b' -> T h' h2' (a' ++ b')) -> good T h h2 (a ++ b).
  Proof.
    intros H1 H2 HT Hk. pose proof (good_after _ _ _ _ H1 Hk) as Hk1. destruct (H1 Hk) as (ps & P1 & -> & S1 & V1). destruct (H2 Hk1) as (qs & P2 & -> & S2 & V2).
    exists (ps ++ qs). split; [by apply Forall_app|]. split; [rewrite fill_app; f_equal; by apply fill_same|]. split; [intros x k Hx; by rewrite S2, S1|].
    intros h' Hv. destruct (V1 h' Hv) as (h1' & R1 & Hv1 & S1'). destruct (V2 h1' Hv1) as (h2' & R2 & Hv2 & S2'). exists h2'.
    split; [|split; [done|intros x k Hx; by rewrite S2', S1']]. rewrite fill_app. rewrite <- (fill_same h' h1' qs S1' P2). by eapply HT.
  Qed.

  (** ** Fields *)
  Lemma stems_end h path o r (P : role -> Prop) : ends_in kind P path -> stems h path o r -> r = None \/ exists x k v, o = Cell x k /\ r = Some v /\ cell h x k v /\ P (kind k).
  Proof.
    intros He [|x k v Ht Hc|d k i Ht Hd]; [by left|right|exfalso; by apply (proj2 (He k Ht) i)]. exists x, k, v. split; [done|]. split; [done|]. split; [done|]. apply (He k Ht).
  Qed.
  Lemma cell_role h x k v : variant kind h h -> cell h x k v -> fits kind h k v v.
  Proof. intros. by eapply cell_fits. Qed.
  Lemma cell_field h x k v sc key : cell h x k v -> (forall l, v <> VRef l) -> found h sc key (Some v) -> field_text F ord h sc key (field F h x k).
  Proof.
    intros (m & Ex & Ek) Hn Hf. unfold field. rewrite Ex, Ek. assert (v = VNil \/ v <> VNil) as [->|Hne] by (destruct v; (by left) || (by right)); [by apply ft_nil|].
    assert (Hp : field_text F ord h sc key (plain_text F v)) by (eapply ft_value; [done|done|by apply plain_prints]). by destruct v.
  Qed.
  Lemma field_text_found h sc key s x k v : cell h x k v -> found h sc key (Some v) -> (forall l, v <> VRef l) -> field_text F ord h sc key s -> s = field F h x k.
  Proof.
    intros (m & Ex & Ek) Hf Hn H. unfold field. rewrite Ex, Ek. destruct H as [H|H|w t H Hne Hp]; pose proof (found_unique _ _ _ _ _ H Hf); simplify_eq; [done|].
    apply plain_prints in Hp; [|done]. by destruct v.
  Qed.
  Lemma same_field h h' x k : variant kind h h' -> kind k = Plain -> field F h' x k = field F h x k.
  Proof.
    intros Hv Hk. unfold field. destruct (Hv x) as [m m' Hm|o Ho]; [|done]. destruct (Hm k) as [v v' Hf|]; [|done]. unfold fits in Hf. rewrite Hk in Hf. by destruct Hf as [-> _].
  Qed.
  Lemma var_good h sc key out : (forall k, tail key k -> V k) -> ends_in kind (fun r => r = Free \/ r = Plain) key -> field_text F ord h sc key out -> good (fun h' h1' o => h1' = h' /\ field_text F ord h' sc key o) h h out.
  Proof.
    intros HV He Hft Hk. assert (exists r, found h sc key r) as [r Hf] by (destruct Hft; eauto).
    destruct (found_origin kind h sc key r Hf) as (o & Ho & Hall). destruct (stems_end _ _ _ _ _ He Ho) as [->|(x & k & v & -> & -> & Hc & Hr)].
    - inversion Ho; subst. exists []. split; [constructor|]. assert (out = []) as -> by (destruct Hft as [H|H|? ? H]; [done|done|]; pose proof (found_unique _ _ _ _ _ H Hf); done).
      split; [done|]. split; [done|]. intros h' Hv. exists h'. split; [|done]. split; [done|]. destruct (Hall h' Hv) as (r' & Hf' & Ho'). inversion Ho'; subst. by apply ft_missing.
    - assert (Hn : forall h' v', variant kind h h' -> cell h' x k v' -> forall l, v' <> VRef l).
      { intros h' v' Hv Hc' l ->. pose proof (cell_fits kind h h' x k v (VRef l) Hv Hc Hc') as Hfit. unfold fits in Hfit. destruct Hr as [Hr|Hr]; rewrite Hr in Hfit; [by destruct Hfit as [_ K]; destruct (K l)|].
        destruct Hfit as [<- K]. by destruct (K l). }
      assert (Eo : out = field F h x k) by (eapply field_text_found; [done..|by eapply Hn|done]).
      assert (Hft' : forall h', variant kind h h' -> field_text F ord h' sc key (field F h' x k)).
      { intros h' Hv. destruct (Hall h' Hv) as (r' & Hf' & Ho'). inversion Ho' as [|? ? v' ? Hc'|]; subst. eapply cell_field; [done| |done]. by eapply Hn. }
      destruct Hr as [Hr|Hr].
      + exists [Hole x k]. split; [inversion Ho; subst; repeat constructor; [done|by apply HV]|]. unfold fill. simpl. rewrite app_nil_r. split; [done|]. split; [done|]. intros h' Hv. exists h'. rewrite app_nil_r. split; [split; [done|by apply Hft']|done].
      + refine (good_lit (fun h' h1' o => h1' = h' /\ field_text F ord h' sc key o) h out _ Hk). intros h' Hv. split; [done|]. rewrite Eo, <- (same_field h h' x k Hv Hr). by apply Hft'.
  Qed.
  (** A field that is not free. *)
  Lemma plain_field h h' sc key s : ends_in kind (fun r => r = Plain) key -> field_text F ord h sc key s -> variant kind h h' -> field_text F ord h' sc key s.
  Proof.
    intros He Hft Hv. pose proof (variant_left _ _ Hv) as Hk. assert (exists r, found h sc key r) as [r Hf] by (destruct Hft; eauto).
    assert (Hf' : found h' sc key r) by (eapply found_kept; [done| |done]; intros k Ht; destruct (He k Ht) as [-> _]; done).
    destruct (found_origin kind h sc key r Hf) as (o & Ho & _). destruct (stems_end _ _ _ _ _ He Ho) as [->|(x & k & v & -> & -> & Hc & Hr)].
    - destruct Hft as [H|H|? ? H]; [by apply ft_missing|pose proof (found_unique _ _ _ _ _ H Hf); done..].
    - pose proof (cell_role h x k v Hk Hc) as Hfit. unfold fits in Hfit. rewrite Hr in Hfit. destruct Hfit as [_ Hn].
      destruct Hft as [H|H|w t H Hne Hp]; pose proof (found_unique _ _ _ _ _ H Hf); simplify_eq; [by apply ft_nil|].
      eapply ft_value; [done|done|]. apply plain_prints; [done|]. by apply plain_prints in Hp.
  Qed.
  (** The value of a condition: none, no object, or a dataset. *)
  Lemma cond_value h sc key r : variant kind h h -> ends_in kind (fun r => r = Plain \/ r = Table) key -> found h sc key r ->
    (forall h', variant kind h h' -> found h' sc key r) /\ forall v, r = Some v -> (forall l, v <> VRef l) \/ exists l, v = VRef l /\ dataset_at h l.
  Proof.
    intros Hk He Hf. split.
    - intros h' Hv. eapply found_kept; [done| |done]. intros k Ht. destruct (He k Ht) as [[-> | ->] _]; done.
    - intros v ->. destruct (found_origin kind h sc key _ Hf) as (o & Ho & _). destruct (stems_end _ _ _ _ _ He Ho) as [?|(x & k & w & -> & [= <-] & Hc & Hr)]; [done|].
      pose proof (cell_role h x k v Hk Hc) as Hfit. unfold fits in Hfit. destruct Hr as [Hr|Hr]; rewrite Hr in Hfit; destruct Hfit as [_ Hn]; [by left|].
      destruct v; try (left; congruence). right. eauto.
  Qed.
  Lemma blank_kept h h' r : (forall v, r = Some v -> (forall l, v <> VRef l) \/ exists l, v = VRef l /\ dataset_at h l) -> variant kind h h' -> blank F ord h r -> blank F ord h' r.
  Proof.
    intros Hc Hv Hb. destruct Hb as [| |v Hn Hp]; [constructor|constructor|]. destruct (Hc v eq_refl) as [Hnr|(l & -> & _)].
    - apply bl_empty; [done|]. apply plain_prints; [done|]. by apply plain_prints in Hp.
    - exfalso. by destruct (ref_prints kind F ord Hord h h' l [] Hv Hp).
  Qed.
End Holes.

Section Templates.
  Context (kind : bytes -> role) (Hpr : proper kind) (F : golib) (ord : heap -> gmap bytes value -> list (bytes * value)) (Hord : order_ok ord).
  Context (V : bytes -> Prop).
  Definition careful_in (k : token) : Prop := careful kind k /\ forall s e, k = TVar s -> tail s e -> V e.
  Context (th : theap) (lg : option lang) (S : loc -> Prop) (HS : forall x n y, S x -> visible th x n (Some y) -> S y).
  Context (Hca : forall x T l, S x -> th !! x = Some T -> t_root T = Some (map stored l) -> Forall careful_in l).
  Lemma chosen_S t ns x : S t -> choose th t ns (Some x) -> S x.
  Proof. intros Ht H. remember (Some x) as r eqn:E. induction H; simplify_eq; eauto. Qed.
  Lemma default_S t n q x : S t -> S x -> visible th t n q -> S (or_else q x).
  Proof. intros Ht Hx Hq. destruct q; simpl; [exact (HS t n _ Ht Hq)|done]. Qed.
  Notation good := (good kind F V).
  Lemma renders_good :
    (forall h sc t h1 out, renders F ord th lg h sc t h1 out -> S t -> good (fun h' h1' o => renders F ord th lg h' sc t h1' o) h h1 out) /\
    (forall h sc t l h1 out, renders_all F ord th lg h sc t l h1 out -> S t -> Forall careful_in l -> good (fun h' h1' o => renders_all F ord th lg h' sc t l h1' o) h h1 out) /\
    (forall h sc t h1 out, renders_opt F ord th lg h sc t h1 out -> (forall x, t = Some x -> S x) -> good (fun h' h1' o => renders_opt F ord th lg h' sc t h1' o) h h1 out) /\
    (forall h sc t k h1 out, renders_one F ord th lg h sc t k h1 out -> S t -> careful_in k -> good (fun h' h1' o => renders_one F ord th lg h' sc t k h1' o) h h1 out) /\
    (forall h sc t b x i n ds h1 out, loops F ord th lg h sc t b x i n ds h1 out -> S t -> S x ->
       good (fun h' h1' o => loops F ord th lg h' sc t b x i n ds h1' o) h h1 out).
  Proof.
    apply renders_mutind.
    - intros h sc t T l h1 out HT Hr _ IH Ht. eapply good_map; [|apply IH; eauto]. intros. by eapply rd_root.
    - intros h sc t T HT Hr Ht. apply good_lit. intros. by eapply rd_not_compiled.
    - intros h sc t Ht _. apply good_lit. intros. constructor.
    - intros h sc t k l h1 h2 a b _ IH1 _ IH2 Ht Hl. inversion Hl; subst. eapply good_app; [by apply IH1|by apply IH2|]. cbv beta. intros h0 h1' h2' a' b' Q1 Q2. eapply ra_cons; [exact Q1|exact Q2].
    - intros h sc Ht. apply good_lit. intros. constructor.
    - intros h sc t h1 out _ IH Ht. eapply good_map; [|apply IH; eauto]. intros. by constructor.
    - intros h sc t s Ht _. apply good_lit. intros. constructor.
    - intros h sc t s Ht _. apply good_lit. intros. constructor.
    - intros h sc t s g v Hg Hv Ht _. apply good_lit. intros. by eapply ro_lang.
    - intros h sc t s Hg Ht _. apply good_lit. intros. by apply ro_lang_missing.
    - intros h sc t s out Hf Ht [Hk HV]. inversion Hk as [| | |? He| | | |]; subst. eapply good_map; [|by apply var_good; [by eauto|..]]. simpl. intros h' h1' o _ _ [-> H]. by apply ro_var.
    - intros h sc d t s out Hs Hd Ht [Hk HV]. inversion Hk; subst. by destruct Hs.
    - intros h sc t s H1 H2 Ht _. apply good_lit. intros. by apply ro_dump_other.
    - intros h sc t s a field prefix v r h1 out Hs Hf Hc _ IH Ht [Hk HV]. inversion Hk as [| | | | |? He| |]; subst. eapply good_map; [|apply IH].
      + simpl. intros h' h1' o Hv Hv1 H. eapply ro_ref_select; [done| |done|done]. eapply plain_field; [by eapply He|done|done].
      + intros x ->. by eapply chosen_S.
    - intros h sc t s a field x d h1 out Hs Hv Hf Hd _ IH Ht Hk. eapply good_map; [|apply IH; by eapply HS].
      simpl. intros h' h1' o Hvr Hv1 H. eapply ro_ref_narrow; [done|done|by eapply found_ref|by apply (variant_dataset kind h h' Hvr)|done].
    - intros h sc t s a field x r h1 out Hs Hv Hf Hd _ IH Ht Hk. eapply good_map; [|apply IH; by eapply HS].
      simpl. intros h' h1' o Hvr Hv1 H. destruct (found_any kind h sc field r Hf h' Hvr) as (r' & Hf' & Hr'). eapply ro_ref_keep; [done|done|done| |done].
      intros d -> Hds. apply (Hd d); [by apply Hr'|]. by apply (variant_dataset kind h h' Hvr).
    - intros h sc t s a ws x h1 out Hs H1 H2 Hv _ IH Ht Hk. eapply good_map; [|apply IH; by eapply HS]. simpl. intros. by eapply ro_ref.
    - intros h sc t s a ws Hs H2 Hv Ht _. apply good_lit. intros. by eapply ro_ref_unknown.
    - intros h sc t s d b x c xs h1 out Hs Hv Hf Hc Hx _ IH Ht Hk. eapply good_map; [|apply IH; [done|by eapply HS]].
      simpl. intros h' h1' o Hvr Hv1 H. eapply ro_range; [done|done|by eapply found_ref|by apply (variant_coll kind h h' Hvr)|done|done].
    - intros h sc t s d b x r q h1 out Hs Hv Hf Hn Hq _ IH Ht Hk. eapply good_map; [|apply IH; eapply default_S; [done|by eapply HS|done]].
      simpl. intros h' h1' o Hvr Hv1 H. destruct (found_any kind h sc d r Hf h' Hvr) as (r' & Hf' & Hr'). eapply ro_range_none; [done|done|done| |done|done].
      intros c xs -> Hc. eapply Hn; [by apply Hr'|]. by apply (variant_coll kind h h' Hvr).
    - intros h sc t s d b Hs Hv Ht _. apply good_lit. intros. by eapply ro_range_unknown.
    - intros h sc t s d b x v q h1 out u Hs Hv Hf Hd Hq _ IH Hp Ht [Hk HV]. inversion Hk as [| | | | | | |? He]; subst. specialize (He _ _ Hs).
      eapply good_map; [|apply IH; eapply default_S; [done|by eapply HS|done]].
      simpl. intros h' h1' o Hvr Hv1 H. destruct (ref_prints kind F ord Hord h1 h1' v u Hv1 Hp) as [_ (u' & Hu' & _)].
      eapply ro_cond_dataset; [done|done|by eapply found_ref|by apply (variant_dataset kind h h' Hvr)|done|done|done].
    - intros h sc t s d b x v w q h1 out u Hs Hv Hf Hn Hnd Hp Hw Hq _ IH Hu Ht [Hk HV]. inversion Hk as [| | | | | | |? He]; subst. specialize (He _ _ Hs).
      eapply good_map; [|apply IH; eapply default_S; [done|by eapply HS|done]].
      simpl. intros h' h1' o Hvr Hv1 H. destruct (cond_value kind h sc d (Some v) (variant_left kind h h' Hvr) He Hf) as [Hf' Hc].
      destruct (Hc v eq_refl) as [Hnr|(l & -> & Hl)]; [|by destruct (Hnd l)].
      eapply (ro_cond_value F ord th lg h' sc t s d b x v w q); [done|done|by apply Hf'|done| | |done|done|done|].
      + intros l ->. by destruct (Hnr l).
      + apply plain_prints; [done|]. by apply plain_prints in Hp.
      + by apply plain_prints.
    - intros h sc t s d b v w Hs Hv Hf Hn Hp Hw Ht [Hk HV]. inversion Hk as [| | | | | | |? He]; subst. specialize (He _ _ Hs). apply good_lit. intros h' Hvr.
      destruct (cond_value kind h sc d (Some v) (variant_left kind h h' Hvr) He Hf) as [Hf' Hc]. destruct (Hc v eq_refl) as [Hnr|(l & -> & Hl)].
      + eapply ro_cond_unknown; [done|done|by apply Hf'|done| |done]. apply plain_prints; [done|]. by apply plain_prints in Hp.
      + destruct (ref_prints kind F ord Hord h h' l w Hvr Hp) as [_ (u' & Hu' & Hne)]. eapply ro_cond_unknown; [done|done|by apply Hf'|done|done|done].
    - intros h sc t s d b r p q h1 out Hs Hv Hf Hbl Hq _ IH Ht [Hk HV]. inversion Hk as [| | | | | | |? He]; subst. specialize (He _ _ Hs).
      eapply good_map; [|apply IH; intros x Hx; destruct q as [y|]; simplify_eq; by eapply HS].
      simpl. intros h' h1' o Hvr Hv1 H. destruct (cond_value kind h sc d r (variant_left kind h h' Hvr) He Hf) as [Hf' Hc].
      eapply ro_cond_blank; [done|done|by apply Hf'|by eapply blank_kept|done|done].
    - intros h sc t b x i n Ht Hx. apply good_lit. intros. constructor.
    - intros h sc t b x i n d ds q h1 h2 h3 o1 o2 Hq Hc _ IH1 _ IH2 Ht Hx.
      assert (HSq : S (or_else q x)) by (destruct q; simpl; [exact (chosen_S t _ _ Ht Hq)|exact Hx]).
      eapply (good_app kind F V (fun h' h2' o => exists h1', counts h' d i h1' /\ renders F ord th lg h1' (d :: sc) (or_else q x) h2' o)); [|by apply IH2|].
      + specialize (IH1 HSq). intros Hk. destruct (counts_variant kind Hpr F h d i h1 h Hc Hk) as (h1' & Hc' & Hv1 & Hs1). pose proof (variant_left kind h1 h1' Hv1) as Hk1.
        assert (h1' = h1) as ->. { destruct Hc as (y & m & Hi & ->), Hc' as (y' & m' & Hi' & ->). assert (y' = y /\ m' = m) as [-> ->]; [|done].
          clear -Hi Hi'. revert y' m' Hi'. induction Hi as [l m E|l d x m E _ IH]; intros y' m' Hi'; inversion Hi'; subst; simplify_eq; eauto. }
        destruct (IH1 Hk1) as (ps & P1 & -> & S1 & V1). exists ps. split; [done|]. split; [by apply (fill_same kind F V)|]. split; [intros y k Hy; by rewrite S1, Hs1|].
        intros h' Hv. destruct (counts_variant kind Hpr F h d i h1 h' Hc Hv) as (g1 & Hg & Hvg & Hsg). destruct (V1 g1 Hvg) as (g2 & R2 & Hv2 & Hs2).
        exists g2. split; [|split; [done|intros y k Hy; by rewrite Hs2, Hsg]]. exists g1. split; [done|]. by rewrite (fill_same kind F V h' g1 ps Hsg P1) in R2.
      + simpl. intros h' h2' h3' a' b' (h1' & Hc' & Hr') Hl'. eapply lp_next; [exact Hq|exact Hc'|exact Hr'|exact Hl'].
  Qed.
End Templates.

Lemma execute_pattern kind F ord langs th n h t d h1 out : compiled th -> order_ok ord -> proper kind -> careful_template kind th t -> variant kind h h ->
  execute F ord langs th n h t (Some d) = Ok (h1, out) ->
  exists ps, Forall (fun p => match p with Lit _ => True | Hole _ k => kind k = Free /\ printed th t k end) ps /\ out = fill F h ps /\
    forall h', variant kind h h' -> exists n' h1', execute F ord langs th n' h' t (Some d) = Ok (h1', fill F h' ps) /\ variant kind h1 h1'.
Proof.
  intros Hc Hord Hpr Hct Hk H. assert (E : executes F ord langs th h t d h1 out) by (apply execute_meaning; [done|by exists n]).
  destruct E as (lg & (r & Hr & Hlg) & Hren).
  assert (HS : forall x n y, reaches th t x -> visible th x n (Some y) -> reaches th t y) by (intros x nm y Hx Hy; eapply rtc_r; [exact Hx|by exists nm]).
  assert (Hca : forall x T l, reaches th t x -> th !! x = Some T -> t_root T = Some (map stored l) -> Forall (careful_in kind (printed th t)) l).
  { intros x T l Hx HT Hl. apply Forall_forall. intros k Hin. split; [|intros s e -> He; by exists x, T, l, s].
    pose proof (Hct x T l Hx HT Hl) as HF. rewrite Forall_forall in HF. by apply HF. }
  destruct (proj1 (renders_good kind Hpr F ord Hord (printed th t) th lg (reaches th t) HS Hca) _ _ _ _ _ Hren (rtc_refl _ _) Hk) as (ps & P1 & E1 & _ & V1).
  exists ps. split; [exact P1|]. split; [done|]. intros h' Hv. destruct (V1 h' Hv) as (h1' & R1 & Hv1 & _).
  assert (executes F ord langs th h' t d h1' (fill F h' ps)) as E.
  { exists lg. split; [|done]. exists r. split; [|done]. destruct (answer_origin kind h d _ r Hr) as (o & Ho & Hall). destruct (Hall h' Hv) as (r' & Hr' & Ho').
    assert (r' = r) as ->; [|done]. inversion Ho as [|x k v Ht' Hc'|e k i Ht' Hd']; subst; inversion Ho' as [|? ? v' ? Hc2|]; subst; [done| |done].
    assert (k = B "#") as ->. { destruct Ht' as [->|[p Ep]]; [done|]. destruct p as [|c p]; [done|]. by destruct p. }
    pose proof (cell_fits kind h h' _ _ _ _ Hv Hc' Hc2) as Hfit. unfold fits in Hfit. destruct Hpr as [_ Hp]. destruct (kind (B "#")); [done|naive_solver..]. }
  apply execute_meaning in E as [n' E]; [|done]. eauto.
Qed.
Lemma unprinted kind F ord langs th n h t d h1 out : compiled th -> order_ok ord -> proper kind -> careful_template kind th t ->
  (forall k, printed th t k -> kind k <> Free) -> variant kind h h -> execute F ord langs th n h t (Some d) = Ok (h1, out) ->
  forall h', variant kind h h' -> exists n' h1', execute F ord langs th n' h' t (Some d) = Ok (h1', out).
Proof.
  intros Hc Ho Hp Hca Hn Hk H h' Hv. destruct (execute_pattern _ _ _ _ _ _ _ _ _ _ _ Hc Ho Hp Hca Hk H) as (ps & HF & -> & Hall).
  destruct (Hall h' Hv) as (n' & h1' & E & _). exists n', h1'. rewrite E. do 2 f_equal. clear -HF Hn.
  induction HF as [|p ps Hp _ IH]; [done|]. unfold fill in *. simpl. rewrite IH. f_equal. destruct p as [s|x k]; [done|]. destruct Hp as [Hf Hpr]. by destruct (Hn k Hpr).
Qed.

(** ** A test for careful templates, for the examples *)
Definition simple (s : bytes) : bool := match s with c :: _ => negb (existsb (Ascii.eqb c) (B "0123456789+-")) && negb (existsb (Ascii.eqb ">"%char) s) | [] => false end.
Fixpoint until_colon (s : bytes) : bytes := match s with c :: r => if Ascii.eqb c ":"%char then [] else c :: until_colon r | [] => [] end.
Definition careful_check (kind : bytes -> role) (p : param) : bool :=
  match p_type p with
  | 7 => simple (p_data p) && match kind (p_data p) with Free | Plain => true | _ => false end
  | 6 => bool_decide (p_data p <> B "dump") && bool_decide (p_data p <> B "list")
  | 5 => simple (until_colon (p_data p)) && match kind (until_colon (p_data p)) with Plain | Table => true | _ => false end
  | 3 => negb (Nat.eqb (count_occ Ascii.ascii_dec (p_data p) ":"%char) 2)
  | _ => true
  end.
Lemma simple_ends kind (P : role -> Prop) s : simple s = true -> P (kind s) -> ends_in kind P s.
Proof.
  intros Hs HP k Ht. destruct s as [|c s]; [done|]. cbn [simple] in Hs. apply andb_true_iff in Hs as [H1 H2].
  assert (k = c :: s) as ->.
  { destruct Ht as [->|[p Ep]]; [done|]. exfalso. assert (existsb (Ascii.eqb ">"%char) (c :: s) = true) as K; [|by rewrite K in H2].
    rewrite Ep. apply existsb_exists. exists ">"%char. split; [|done]. apply in_or_app. right. by left. }
  split; [done|]. intros i Hd. assert (existsb (Ascii.eqb c) (B "0123456789+-") = true) as K; [|by rewrite K in H1].
  inversion Hd as [ds ? Hds Hm|ds ? Hds|ds ? Hds]; subst; [|done..].
  destruct Hds as [_ HF]. inversion HF as [|z ? ds2 ? [Hz Ez] _]; subst. assert (z = 0 \/ z = 1 \/ z = 2 \/ z = 3 \/ z = 4 \/ z = 5 \/ z = 6 \/ z = 7 \/ z = 8 \/ z = 9) as K by lia.
  assert (Ec : c = Ascii.ascii_of_N (Z.to_N (48 + z))) by (by rewrite <- Ez, N2Z.id, Ascii.ascii_N_embedding).
  rewrite Ec. clear -K. repeat (destruct K as [->|K]; [reflexivity|]). by subst.
Qed.
Lemma until_colon_prefix s d ws : separated ":"%char s d ws -> until_colon s = d.
Proof.
  intros [HF ->]. inversion HF as [|? ? Hd _]; subst. clear HF. induction d as [|c d IH].
  - destruct ws; [done|]. done.
  - cbn [app until_colon]. apply not_elem_of_cons in Hd as [Hc Hd]. destruct (Ascii.eqb c ":"%char) eqn:E; [by apply Ascii.eqb_eq in E; subst|]. f_equal. by apply IH.
Qed.
Lemma colon_count s a ws : separated ":"%char s a ws -> count_occ Ascii.ascii_dec s ":"%char = length ws.
Proof.
  intros [HF ->]. inversion HF as [|? ? Ha Hws]; subst. rewrite count_occ_app.
  assert (Hz : forall x, ":"%char ∉ x -> count_occ Ascii.ascii_dec x ":"%char = 0%nat) by (intros x Hx; apply count_occ_not_In; by rewrite <- elem_of_list_In).
  rewrite (Hz a Ha). simpl. clear HF Ha. induction Hws as [|w ws Hw _ IH]; [done|]. cbn [map concat]. rewrite count_occ_app. cbn [count_occ length].
  destruct (Ascii.ascii_dec ":" ":"); [|done]. rewrite (Hz w Hw), IH. lia.
Qed.
Lemma careful_checked kind th t : compiled th -> forallb (fun '(_, T) => match t_root T with Some ps => forallb (careful_check kind) ps | None => true end) (map_to_list th) = true -> careful_template kind th t.
Proof.
  intros Hc H x T l _ HT Hl. rewrite forallb_forall in H. specialize (H (x, T)). cbn beta iota in H. rewrite Hl in H.
  assert (Hin : In (x, T) (map_to_list th)) by (by apply elem_of_list_In, elem_of_map_to_list). specialize (H Hin). rewrite forallb_forall in H.
  destruct (Hc x T _ HT Hl) as (l' & El & Hok). assert (l' = l) as ->.
  { clear -El. revert l' El. induction l as [|k l IH]; intros [|k' l'] E; try done. cbn [map] in E. injection E as E1 E2. f_equal; [|by apply IH]. destruct k, k'; simpl in E1; simplify_eq; done. }
  apply Forall_forall. intros k Hk. rewrite Forall_forall in Hok. destruct (Hok k Hk) as [K1 K2].
  assert (Hck : careful_check kind (stored k) = true) by (apply H, in_map; by apply elem_of_list_In).
  destruct k as [s|s|s|s|s|s|s|s|s|]; try by constructor.
  - apply ca_ref. intros a f p Hs. apply colon_count in Hs. unfold careful_check in Hck. cbn [stored p_type p_data] in Hck. by rewrite Hs in Hck.
  - unfold careful_check in Hck. cbn [stored p_type p_data] in Hck. apply andb_true_iff in Hck as [H1 H2]. apply ca_cond. intros d b Hd.
    assert (until_colon s = d) as <- by (destruct Hd as [[Hd _]|[ws Hd]]; by eapply until_colon_prefix). apply simple_ends; [done|]. destruct (kind (until_colon s)); auto; done.
  - unfold careful_check in Hck. cbn [stored p_type p_data] in Hck. apply andb_true_iff in Hck as [H1%bool_decide_eq_true H2%bool_decide_eq_true]. by apply ca_dump.
  - unfold careful_check in Hck. cbn [stored p_type p_data] in Hck. apply andb_true_iff in Hck as [H1 H2]. apply ca_var. apply simple_ends; [done|]. destruct (kind s); auto; done.
  - by destruct (K2 s).
  - done.
Qed.
