(** * Executions do not depend on addresses (C92). *)
From Verif Require Import GoBase GoStrings GoStringsProofs DatasetModel LangModel DatasetSpec DatasetProofs DatasetProofs2 DatasetProofs3 DatasetProofs4
  TemplateModel TemplateSpec RenderSpec SameSpec.

Section Alike.
  Context (R : loc -> loc -> Prop).
  Notation sv := (same_value R).
  Notation ro := (option_Forall2 R).
  Lemma sv_ref d v' : sv (VRef d) v' -> exists d', v' = VRef d' /\ R d d'.
  Proof. intros [[-> H]|(? & d' & [= <-] & -> & H)]; [by destruct (H d)|eauto]. Qed.
  Lemma sv_nil v v' : sv v v' -> v = VNil <-> v' = VNil.
  Proof. by intros [[-> _]|(? & ? & -> & -> & _)]. Qed.
  Lemma sv_mk d d' : R d d' -> sv (VRef d) (VRef d').
  Proof. right. eauto. Qed.

  Context (h h' : heap) (Ha : alike R h h').
  Lemma alike_ds l l' m : R l l' -> h !! l = Some (ODs m) ->
    exists m', h' !! l' = Some (ODs m') /\ forall k, option_Forall2 sv (m !! k) (m' !! k).
  Proof. intros H E. pose proof (Ha _ _ H) as Ho. rewrite E in Ho. inversion Ho; subst. eauto. Qed.
  Lemma alike_ts l l' w : R l l' -> h !! l = Some (OTs w) -> exists w', h' !! l' = Some (OTs w') /\ ro w w'.
  Proof. intros H E. pose proof (Ha _ _ H) as Ho. rewrite E in Ho. inversion Ho; subst. eauto. Qed.
  Lemma alike_coll c c' xs : R c c' -> collection_at h c xs -> exists xs', collection_at h' c' xs' /\ Forall2 ro xs xs'.
  Proof.
    intros H E. pose proof (Ha _ _ H) as Ho. destruct E as [E|E]; rewrite E in Ho; inversion Ho; subst;
      eexists; (split; [|done]); [by left|by right].
  Qed.
  Lemma alike_dataset d d' : R d d' -> dataset_at h d -> dataset_at h' d'.
  Proof.
    intros H [[m E]|[w E]].
    - destruct (alike_ds _ _ _ H E) as (m' & E' & _). left. eauto.
    - destruct (alike_ts _ _ _ H E) as (w' & E' & _). right. eauto.
  Qed.
  Lemma alike_inside d x m : inside h d x m -> forall d', R d d' -> exists x' m', inside h' d' x' m' /\ R x x' /\
    forall k, option_Forall2 sv (m !! k) (m' !! k).
  Proof.
    induction 1 as [l m E|l d t m E _ IH]; intros l' Hl.
    - destruct (alike_ds _ _ _ Hl E) as (m' & E' & Hm). exists l', m'. split; [by apply in_ds|done].
    - destruct (alike_ts _ _ _ Hl E) as (w' & E' & Hw). inversion Hw as [? d' Hd|]; subst.
      destruct (IH d' Hd) as (x' & m' & Hi & ?). exists x', m'. split; [by eapply in_ts|done].
  Qed.
  (** A counter written on both sides. *)
  Lemma alike_store x x' m m' : one_to_one R -> R x x' -> (forall k, option_Forall2 sv (m !! k) (m' !! k)) ->
    alike R (<[x := ODs m]> h) (<[x' := ODs m']> h').
  Proof.
    intros H1 Hx Hm l l' Hl. destruct (decide (l = x)) as [->|Hne].
    - assert (l' = x') as -> by (by apply (H1 _ _ _ _ Hl Hx)). rewrite !lookup_insert. by constructor.
    - assert (l' <> x') by (intros ->; apply Hne; by apply (H1 _ _ _ _ Hl Hx)).
      rewrite !lookup_insert_ne by done. by apply Ha.
  Qed.
End Alike.

Lemma flip_sv R v v' : same_value R v v' -> same_value (flip R) v' v.
Proof. intros [[-> H]|(d & d' & -> & -> & H)]; [by left|right; by exists d', d]. Qed.
Lemma flip_ro (R : loc -> loc -> Prop) w w' : option_Forall2 R w w' -> option_Forall2 (flip R) w' w.
Proof. by destruct 1; constructor. Qed.
Lemma alike_flip R h h' : alike R h h' -> alike (flip R) h' h.
Proof.
  intros Ha l' l H. destruct (Ha _ _ H) as [|m m' Hm|w w' Hw|xs xs' Hx|xs xs' Hx]; constructor.
  - intros k. destruct (Hm k); constructor. by apply flip_sv.
  - by apply flip_ro.
  - apply Forall2_flip. eapply Forall2_impl; [exact Hx|]. intros. by apply flip_ro.
  - apply Forall2_flip. eapply Forall2_impl; [exact Hx|]. intros. by apply flip_ro.
Qed.
Lemma one_to_one_flip R : one_to_one R -> one_to_one (flip R).
Proof. intros H a b a' b' H1 H2. symmetry. by apply H. Qed.
Lemma flip_dataset R h h' d d' : alike R h h' -> R d d' -> dataset_at h' d' -> dataset_at h d.
Proof. intros Ha H. apply (alike_dataset (flip R) h' h); [by apply alike_flip|done]. Qed.
Lemma flip_coll R h h' c c' xs' : alike R h h' -> R c c' -> collection_at h' c' xs' ->
  exists xs, collection_at h c xs /\ Forall2 (option_Forall2 R) xs xs'.
Proof.
  intros Ha H Hc. destruct (alike_coll (flip R) h' h (alike_flip _ _ _ Ha) c' c xs' H Hc) as (xs & Hx & HF). exists xs. split; [done|].
  apply Forall2_flip. eapply Forall2_impl; [exact HF|]. intros a b Hab. apply (flip_ro (flip R)). done.
Qed.

Section Reads.
  Context (R : loc -> loc -> Prop) (h h' : heap) (Ha : alike R h h').
  Notation sv := (same_value R).
  Notation sa := (option_Forall2 sv).
  Lemma sv_not_dataset r r' : sa r r' -> (forall d, r = Some (VRef d) -> ~ dataset_at h d) -> forall d', r' = Some (VRef d') -> ~ dataset_at h' d'.
  Proof.
    intros Hr Hn d' -> Hd. inversion Hr as [v ? Hv|]; subst. destruct Hv as [[<- Hne]|(d & ? & -> & [= <-] & HR)]; [by destruct (Hne d')|].
    apply (Hn d eq_refl). by eapply flip_dataset.
  Qed.
  Lemma sv_plain v v' : sv v v' -> plain h v -> plain h' v'.
  Proof.
    intros Hv [H1 H2]. split.
    - intros d' -> Hd. eapply (sv_not_dataset (Some v) (Some (VRef d'))); [by constructor| |done|done]. intros d [= ->]. by apply H1.
    - intros c' xs' -> Hc. destruct Hv as [[<- Hne]|(c & ? & -> & [= <-] & HR)]; [by destruct (Hne c')|].
      destruct (flip_coll _ _ _ _ _ _ Ha HR Hc) as (xs & Hx & _). by apply (H2 c xs).
  Qed.
  Lemma sm_get (m m' : gmap bytes value) k v : (forall k, sa (m !! k) (m' !! k)) -> m !! k = Some v -> exists v', m' !! k = Some v' /\ sv v v'.
  Proof. intros Hm E. pose proof (Hm k) as H. rewrite E in H. inversion H; subst. eauto. Qed.
  Lemma sm_none (m m' : gmap bytes value) k : (forall k, sa (m !! k) (m' !! k)) -> m !! k = None -> m' !! k = None.
  Proof. intros Hm E. pose proof (Hm k) as H. rewrite E in H. by inversion H. Qed.
  Lemma alike_path l p r : at_path h l p r -> forall l', R l l' -> exists r', at_path h' l' p r' /\ sa r r'.
  Proof.
    induction 1 as [l d p r Hl _ IH|l m k Hl|l m k p Hl Hk Hp|l m k d p r Hl Hk Hd Hp _ IH|l m k c xs s p Hl Hk Hc Hi
      |l m k c xs s i d Hl Hk Hc Hs Hx|l m k c xs s i d p r Hl Hk Hc Hs Hx Hp _ IH|l m k p v Hl Hk Hv Hp]; intros l' HR.
    - destruct (alike_ts _ _ _ Ha _ _ _ HR Hl) as (w' & Hl' & Hw). inversion Hw as [? d' Hd|]; subst.
      destruct (IH d' Hd) as (r' & ? & ?). exists r'. split; [by eapply ap_wrap|done].
    - destruct (alike_ds _ _ _ Ha _ _ _ HR Hl) as (m' & Hl' & Hm). exists (m' !! k). split; [by apply ap_last|done].
    - destruct (alike_ds _ _ _ Ha _ _ _ HR Hl) as (m' & Hl' & Hm). exists None. split; [|constructor].
      eapply ap_missing; [done|by eapply sm_none|done].
    - destruct (alike_ds _ _ _ Ha _ _ _ HR Hl) as (m' & Hl' & Hm). destruct (sm_get _ _ _ _ Hm Hk) as (v' & Hk' & (d' & -> & HRd)%sv_ref).
      destruct (IH d' HRd) as (r' & ? & ?). exists r'. split; [|done]. eapply ap_dataset; [done..|by eapply alike_dataset|done|done].
    - destruct (alike_ds _ _ _ Ha _ _ _ HR Hl) as (m' & Hl' & Hm). destruct (sm_get _ _ _ _ Hm Hk) as (v' & Hk' & (c' & -> & HRc)%sv_ref).
      destruct (alike_coll _ _ _ Ha _ _ _ HRc Hc) as (xs' & Hc' & HF). exists None. split; [|constructor].
      eapply ap_no_index; [done..|]. intros i d' Hden Hx'. destruct (Forall2_lookup_r _ _ _ _ _ HF Hx') as (e & He & Hed).
      inversion Hed as [d ? Hdd|]; subst. by apply (Hi i d).
    - destruct (alike_ds _ _ _ Ha _ _ _ HR Hl) as (m' & Hl' & Hm). destruct (sm_get _ _ _ _ Hm Hk) as (v' & Hk' & (c' & -> & HRc)%sv_ref).
      destruct (alike_coll _ _ _ Ha _ _ _ HRc Hc) as (xs' & Hc' & HF). destruct (Forall2_lookup_l _ _ _ _ _ HF Hx) as (e & He & Hed).
      inversion Hed as [? d' Hdd|]; subst. exists (Some (VRef d')). split; [by eapply ap_element|]. constructor. by apply sv_mk.
    - destruct (alike_ds _ _ _ Ha _ _ _ HR Hl) as (m' & Hl' & Hm). destruct (sm_get _ _ _ _ Hm Hk) as (v' & Hk' & (c' & -> & HRc)%sv_ref).
      destruct (alike_coll _ _ _ Ha _ _ _ HRc Hc) as (xs' & Hc' & HF). destruct (Forall2_lookup_l _ _ _ _ _ HF Hx) as (e & He & Hed).
      inversion Hed as [? d' Hdd|]; subst. destruct (IH d' Hdd) as (r' & ? & ?). exists r'. split; [|done]. by eapply ap_in_element.
    - destruct (alike_ds _ _ _ Ha _ _ _ HR Hl) as (m' & Hl' & Hm). destruct (sm_get _ _ _ _ Hm Hk) as (v' & Hk' & Hvv).
      eexists. split; [eapply ap_literal; [done..|by eapply sv_plain|done]|]. apply Hm.
  Qed.
  Lemma alike_answers d d' key r : R d d' -> answers h d key r -> exists r', answers h' d' key r' /\ sa r r'.
  Proof.
    intros HR (s & segs & Hs & Hp). destruct (alike_path _ _ _ Hp d' HR) as (r' & Hp' & Hr). exists r'. split; [|done]. by exists s, segs.
  Qed.
  Lemma alike_found sc key r : found h sc key r -> forall sc', Forall2 R sc sc' -> exists r', found h' sc' key r' /\ sa r r'.
  Proof.
    induction 1 as [key|d sc key v Hv|d sc key r Hn _ IH]; intros sc' HF.
    - inversion HF; subst. exists None. split; constructor.
    - inversion HF as [|? d' ? sc2 HR HF']; subst. destruct (alike_answers _ _ _ _ HR Hv) as (r' & Hr' & Hs).
      inversion Hs; subst. eexists. split; [by apply fd_here|done].
    - inversion HF as [|? d' ? sc2 HR HF']; subst. destruct (alike_answers _ _ _ _ HR Hn) as (r' & Hr' & Hs).
      inversion Hs; subst. destruct (IH sc2 HF') as (r2 & ? & ?). exists r2. split; [by apply fd_outer|done].
  Qed.

  (** Printing. *)
  Context (F : golib) (ord ord' : heap -> gmap bytes value -> list (bytes * value)) (Ho : order_ok ord) (Ho' : order_ok ord').
  Lemma same_entries_ (f f' : value -> outcome bytes) l l' : Forall2 (fun e e' => e.1 = e'.1 /\ f e.2 = f' e'.2) l l' ->
    show_entries f l = show_entries f' l'.
  Proof.
    induction 1 as [|[k v] [k' v'] l l' [Hk Hv] _ IH]; simpl in *; [done|]. subst k'. rewrite Hv, IH. done.
  Qed.
  Lemma same_elements_ (f f' : value -> outcome bytes) i xs xs' :
    Forall2 (fun x x' => f (match x with Some l => VRef l | None => VNil end) = f' (match x' with Some l => VRef l | None => VNil end)) xs xs' ->
    show_elements f i xs = show_elements f' i xs'.
  Proof. intros HF. revert i. induction HF as [|x x' xs xs' H _ IH]; intros i; simpl; [done|]. by rewrite H, IH. Qed.
  (** The entries of [m'] in the order of [l]. *)
  Lemma follow_order (m m' : gmap bytes value) l : (forall k, sa (m !! k) (m' !! k)) -> l ≡ₚ map_to_list m ->
    exists l', l' ≡ₚ map_to_list m' /\ Forall2 (fun e e' => e.1 = e'.1 /\ sv e.2 e'.2) l l'.
  Proof.
    intros Hm Hl.
    assert (Hin : forall k v, (k, v) ∈ l <-> m !! k = Some v) by (intros; rewrite Hl; apply elem_of_map_to_list).
    assert (Hnd : NoDup l.*1) by (rewrite Hl; apply NoDup_fst_map_to_list).
    assert (Hex : exists l', Forall2 (fun e e' => e.1 = e'.1 /\ sv e.2 e'.2 /\ m' !! e'.1 = Some e'.2) l l').
    { assert (forall k v, (k, v) ∈ l -> m !! k = Some v) as Hs by (intros; by apply Hin). clear Hl Hin Hnd.
      induction l as [|[k v] l IH]; [exists []; constructor|]. destruct IH as [l' IH]; [intros; apply Hs; by right|].
      destruct (sm_get m m' k v Hm) as (v' & ? & ?); [apply Hs; by left|]. exists ((k, v') :: l'). by constructor. }
    destruct Hex as [l' HF]. exists l'. split; [|eapply Forall2_impl; [exact HF|]; naive_solver].
    assert (Hk : l'.*1 = l.*1).
    { clear -HF. induction HF as [|? ? ? ? [E _] _ IH]; simpl; [done|]. f_equal; [done|exact IH]. }
    assert (Hnd' : NoDup l'.*1) by (by rewrite Hk).
    apply NoDup_Permutation; [exact (NoDup_fmap_1 fst l' Hnd')|apply NoDup_map_to_list|].
    intros [k v']. rewrite elem_of_map_to_list. split.
    - intros [i Hi]%elem_of_list_lookup. destruct (Forall2_lookup_r _ _ _ _ _ HF Hi) as (e & _ & _ & _ & E). done.
    - intros E. assert (k ∈ l'.*1) as Hkin.
      { rewrite Hk. pose proof (Hm k) as Hmk. rewrite E in Hmk. inversion Hmk as [v ? Hv Ev|]; subst.
        apply elem_of_list_fmap. exists (k, v). split; [done|]. by apply Hin. }
      apply elem_of_list_fmap in Hkin as ([k2 v2] & -> & Hin2). simpl in *.
      apply elem_of_list_lookup in Hin2 as Hin3. destruct Hin3 as [i Hi]. destruct (Forall2_lookup_r _ _ _ _ _ HF Hi) as (e & _ & _ & _ & E2).
      simpl in E2. rewrite E in E2. injection E2 as ->. done.
  Qed.
  Lemma alike_show n : forall go l l', R l l' -> show F ord n h go l = show F ord' n h' go l'.
  Proof.
    induction n as [|n IH]; intros go l l' HR; [done|].
    assert (Hv : forall go v v', sv v v' -> show_value F (show F ord n h) go v = show_value F (show F ord' n h') go v').
    { intros go0 v v' [[-> Hne]|(d & d' & -> & -> & Hd)]; [|simpl; by rewrite (IH go0 d d')].
      destruct v; try done. by destruct (Hne l0). }
    assert (Hx : forall xs xs', Forall2 (option_Forall2 R) xs xs' ->
      show_elements (show_value F (show F ord n h) false) 0 xs = show_elements (show_value F (show F ord' n h') false) 0 xs').
    { intros xs xs' HF. apply same_elements_. eapply Forall2_impl; [exact HF|]. intros x x' [d d' Hd|]; apply Hv; [by apply sv_mk|by left]. }
    cbn [show]. destruct (Ha _ _ HR) as [|m m' Hm|w w' Hw|xs xs' HF|xs xs' HF]; [done| | | |].
    - destruct (follow_order m m' (ord h m) Hm (Ho h m)) as (l2 & Hp & HF).
      rewrite (same_entries_ _ (show_value F (show F ord' n h') go) _ l2).
      2:{ eapply Forall2_impl; [exact HF|]. intros e e' [? ?]. split; [done|by apply Hv]. }
      assert (Hp2 : l2 ≡ₚ ord' h' m') by (etrans; [done|symmetry; apply Ho']).
      pose proof (show_entries_perm (show_value F (show F ord' n h') go) _ _ Hp2 (show_value_no_panic F _ _)) as Hs.
      destruct (show_entries _ l2), (show_entries _ (ord' h' m')); try done. cbn [obind]. by rewrite (sort_strings_perm _ _ Hs).
    - destruct Hw as [d d' Hd|]; [by apply IH|done].
    - by rewrite (Hx _ _ HF).
    - by rewrite (Hx _ _ HF).
  Qed.
  Lemma alike_prints v v' s : sv v v' -> prints F ord h v s -> prints F ord' h' v' s.
  Proof.
    intros Hv [n H]. exists n. rewrite <- H. unfold sprint. destruct Hv as [[-> Hne]|(d & d' & -> & -> & Hd)].
    - destruct v; try done. by destruct (Hne l).
    - simpl. by rewrite <- (alike_show n false d d' Hd).
  Qed.
  Lemma alike_dumps d d' s : R d d' -> dumps F ord h d s -> dumps F ord' h' d' s.
  Proof. intros Hd [n H]. exists n. by rewrite <- (alike_show n true d d' Hd). Qed.
  Lemma alike_field sc sc' key s : Forall2 R sc sc' -> field_text F ord h sc key s -> field_text F ord' h' sc' key s.
  Proof.
    intros HF [Hf|Hf|v t Hf Hn Hp]; destruct (alike_found _ _ _ Hf _ HF) as (r' & Hf' & Hr); inversion Hr as [? v' Hv|]; subst.
    - by apply ft_missing.
    - apply ft_nil. by rewrite (proj1 (sv_nil _ _ _ Hv) eq_refl) in Hf'.
    - eapply ft_value; [done| |by eapply alike_prints]. intros ->. apply Hn. by apply (sv_nil R v VNil).
  Qed.
  Lemma alike_blank r r' : sa r r' -> blank F ord h r -> blank F ord' h' r'.
  Proof.
    intros Hr Hb. destruct Hb as [| |v Hn Hp]; inversion Hr as [? v' Hv|]; subst.
    - apply bl_missing.
    - rewrite (proj1 (sv_nil _ _ _ Hv) eq_refl). apply bl_nil.
    - apply bl_empty; [|by eapply alike_prints]. intros ->. apply Hn. by apply (sv_nil R v VNil).
  Qed.
End Reads.

(** ** Executions *)
Section Execute.
  Context (R : loc -> loc -> Prop) (F : golib) (ord ord' : heap -> gmap bytes value -> list (bytes * value)).
  Context (Ho : order_ok ord) (Ho' : order_ok ord') (th : theap) (lg : option lang).
  (** Either addresses correspond one to one, or there is no loop. *)
  Context (S : loc -> Prop) (HS : forall x n y, S x -> visible th x n (Some y) -> S y).
  Context (Hno : forall x T l s, S x -> th !! x = Some T -> t_root T = Some (map stored l) -> TRange s ∉ l).
  Notation bij := (one_to_one R).
  Lemma choose_S t ns x : S t -> choose th t ns (Some x) -> S x.
  Proof. intros Ht H. remember (Some x) as r eqn:E. induction H; simplify_eq; eauto. Qed.
  Lemma or_else_S t n q x : S t -> S x -> visible th t n q -> S (or_else q x).
  Proof. intros Ht Hx Hq. destruct q; simpl; [exact (HS t n _ Ht Hq)|done]. Qed.
  Lemma alike_renders :
    (forall h sc t h1 out, renders F ord th lg h sc t h1 out -> forall h' sc', alike R h h' -> Forall2 R sc sc' -> bij \/ S t ->
       exists h1', renders F ord' th lg h' sc' t h1' out /\ alike R h1 h1') /\
    (forall h sc t l h1 out, renders_all F ord th lg h sc t l h1 out -> forall h' sc', alike R h h' -> Forall2 R sc sc' ->
       bij \/ (S t /\ forall s, TRange s ∉ l) -> exists h1', renders_all F ord' th lg h' sc' t l h1' out /\ alike R h1 h1') /\
    (forall h sc o h1 out, renders_opt F ord th lg h sc o h1 out -> forall h' sc', alike R h h' -> Forall2 R sc sc' ->
       bij \/ (forall t, o = Some t -> S t) -> exists h1', renders_opt F ord' th lg h' sc' o h1' out /\ alike R h1 h1') /\
    (forall h sc t k h1 out, renders_one F ord th lg h sc t k h1 out -> forall h' sc', alike R h h' -> Forall2 R sc sc' ->
       bij \/ (S t /\ forall s, k <> TRange s) -> exists h1', renders_one F ord' th lg h' sc' t k h1' out /\ alike R h1 h1') /\
    (forall h sc t b x i n ds h1 out, loops F ord th lg h sc t b x i n ds h1 out -> forall h' sc' ds', alike R h h' -> Forall2 R sc sc' -> bij ->
       Forall2 (option_Forall2 R) ds ds' -> exists h1', loops F ord' th lg h' sc' t b x i n ds' h1' out /\ alike R h1 h1').
  Proof.
    apply renders_mutind.
    - intros h sc t T l h1 out HT Hr _ IH h' sc' Ha HF Hb. destruct (IH h' sc' Ha HF) as (h1' & ? & ?).
      { destruct Hb as [Hb|Hs]; [by left|right]. split; [done|]. intros s. by eapply Hno. }
      exists h1'. split; [by eapply rd_root|done].
    - intros h sc t T HT Hr h' sc' Ha HF _. exists h'. split; [by eapply rd_not_compiled|done].
    - intros h sc t h' sc' Ha HF _. exists h'. split; [constructor|done].
    - intros h sc t k l h1 h2 a b _ IH1 _ IH2 h' sc' Ha HF Hb. destruct (IH1 h' sc' Ha HF) as (h1' & ? & Ha1).
      { destruct Hb as [Hb|[Hs Hn]]; [by left|right]. split; [done|]. intros s ->. apply (Hn s). by left. }
      destruct (IH2 h1' sc' Ha1 HF) as (h2' & ? & ?).
      { destruct Hb as [Hb|[Hs Hn]]; [by left|right]. split; [done|]. intros s Hin. apply (Hn s). by right. }
      exists h2'. split; [by eapply ra_cons|done].
    - intros h sc h' sc' Ha HF _. exists h'. split; [constructor|done].
    - intros h sc t h1 out _ IH h' sc' Ha HF Hb. destruct (IH h' sc' Ha HF) as (h1' & ? & ?).
      { destruct Hb as [Hb|Hs]; [by left|right]. by apply Hs. }
      exists h1'. split; [by constructor|done].
    - intros h sc t s h' sc' Ha HF _. exists h'. split; [constructor|done].
    - intros h sc t s h' sc' Ha HF _. exists h'. split; [constructor|done].
    - intros h sc t s g v Hg Hv h' sc' Ha HF _. exists h'. split; [by eapply ro_lang|done].
    - intros h sc t s Hg h' sc' Ha HF _. exists h'. split; [by eapply ro_lang_missing|done].
    - intros h sc t s out Hf h' sc' Ha HF _. exists h'. split; [|done]. apply ro_var. eapply (alike_field R h h' Ha F ord ord' Ho Ho'); done.
    - intros h sc d t s out Hs Hd h' sc' Ha HF _. apply Forall2_app_inv_l in HF as (sc1 & e & HF & He & ->).
      inversion He as [|? d' ? ? Hdd Hnil]; subst. inversion Hnil; subst.
      exists h'. split; [|done]. apply ro_dump; [done|]. by eapply (alike_dumps R h h' Ha F ord ord' Ho Ho').
    - intros h sc t s H1 H2 h' sc' Ha HF _. exists h'. split; [by apply ro_dump_other|done].
    - intros h sc t s a field prefix v r h1 out Hs Hf Hc _ IH h' sc' Ha HF Hb. destruct (IH h' sc' Ha HF) as (h1' & ? & ?).
      { destruct Hb as [Hb|[Ht _]]; [by left|right]. intros x ->. by eapply choose_S. }
      exists h1'. split; [|done]. eapply ro_ref_select; [done| |done|done]. eapply (alike_field R h h' Ha F ord ord' Ho Ho'); done.
    - intros h sc t s a field x d h1 out Hs Hv Hf Hd _ IH h' sc' Ha HF Hb.
      destruct (alike_found _ _ _ Ha _ _ _ Hf _ HF) as (r' & Hf' & Hr). inversion Hr as [? v' Hvv|]; subst.
      apply sv_ref in Hvv as (d' & -> & HR). destruct (IH h' (d' :: sc') Ha) as (h1' & ? & ?).
      { by constructor. } { destruct Hb as [Hb|[Ht _]]; [by left|right]. by eapply HS. }
      exists h1'. split; [|done]. eapply ro_ref_narrow; [done..|by eapply alike_dataset|done].
    - intros h sc t s a field x r h1 out Hs Hv Hf Hd _ IH h' sc' Ha HF Hb.
      destruct (alike_found _ _ _ Ha _ _ _ Hf _ HF) as (r' & Hf' & Hr). destruct (IH h' sc' Ha HF) as (h1' & ? & ?).
      { destruct Hb as [Hb|[Ht _]]; [by left|right]. by eapply HS. }
      exists h1'. split; [|done]. eapply ro_ref_keep; [done..| |done]. by eapply sv_not_dataset.
    - intros h sc t s a ws x h1 out Hs H1 H2 Hv _ IH h' sc' Ha HF Hb. destruct (IH h' sc' Ha HF) as (h1' & ? & ?).
      { destruct Hb as [Hb|[Ht _]]; [by left|right]. by eapply HS. }
      exists h1'. split; [|done]. by eapply ro_ref.
    - intros h sc t s a ws Hs H2 Hv h' sc' Ha HF _. exists h'. split; [|done]. by eapply ro_ref_unknown.
    - intros h sc t s d b x c xs h1 out Hs Hv Hf Hc Hx _ IH h' sc' Ha HF Hb.
      assert (Hbij : bij) by (destruct Hb as [Hb|[_ Hb]]; [done|by destruct (Hb s)]).
      destruct (alike_found _ _ _ Ha _ _ _ Hf _ HF) as (r' & Hf' & Hr). inversion Hr as [? v' Hvv|]; subst.
      apply sv_ref in Hvv as (c' & -> & HR). destruct (alike_coll _ _ _ Ha _ _ _ HR Hc) as (xs' & Hc' & HFx).
      destruct (IH h' sc' xs' Ha HF Hbij HFx) as (h1' & Hl & ?). exists h1'. split; [|done]. rewrite (Forall2_length _ _ _ HFx) in Hl.
      eapply ro_range; [done..| |done]. intros ->. by inversion HFx; subst.
    - intros h sc t s d b x r q h1 out Hs Hv Hf Hn Hq _ IH h' sc' Ha HF Hb.
      assert (Hbij : bij) by (destruct Hb as [Hb|[_ Hb]]; [done|by destruct (Hb s)]).
      destruct (alike_found _ _ _ Ha _ _ _ Hf _ HF) as (r' & Hf' & Hr). destruct (IH h' sc' Ha HF (or_introl Hbij)) as (h1' & ? & ?).
      exists h1'. split; [|done]. eapply ro_range_none; [done..| |done|done]. intros c' xs' -> Hc'.
      inversion Hr as [v ? Hvv|]; subst. destruct Hvv as [[<- Hne]|(c & ? & -> & [= <-] & HR)]; [by destruct (Hne c')|].
      destruct (flip_coll _ _ _ _ _ _ Ha HR Hc') as (xs & Hc & HFx). rewrite (Hn c xs eq_refl Hc) in HFx. by inversion HFx.
    - intros h sc t s d b Hs Hv h' sc' Ha HF _. exists h'. split; [|done]. by eapply ro_range_unknown.
    - intros h sc t s d b x v q h1 out u Hs Hv Hf Hd Hq _ IH Hp h' sc' Ha HF Hb.
      destruct (alike_found _ _ _ Ha _ _ _ Hf _ HF) as (r' & Hf' & Hr). inversion Hr as [? v' Hvv|]; subst.
      pose proof Hvv as (d' & -> & HR)%sv_ref. destruct (IH h' (d' :: sc') Ha) as (h1' & ? & Ha1).
      { by constructor. } { destruct Hb as [Hb|[Ht _]]; [by left|right]. eapply or_else_S; [done| |done]. by eapply HS. }
      exists h1'. split; [|done]. eapply ro_cond_dataset; [done..|by eapply alike_dataset|done|done|]. eapply (alike_prints R h1 h1' Ha1 F ord ord' Ho Ho'); done.
    - intros h sc t s d b x v w q h1 out u Hs Hv Hf Hn Hnd Hp Hw Hq _ IH Hu h' sc' Ha HF Hb.
      destruct (alike_found _ _ _ Ha _ _ _ Hf _ HF) as (r' & Hf' & Hr). inversion Hr as [? v' Hvv|]; subst.
      destruct (IH h' sc' Ha HF) as (h1' & ? & Ha1).
      { destruct Hb as [Hb|[Ht _]]; [by left|right]. eapply or_else_S; [done| |done]. by eapply HS. }
      exists h1'. split; [|done]. eapply (ro_cond_value F ord' th lg h' sc' t s d b x v' w q); [done..| | |by eapply (alike_prints R h h' Ha F ord ord' Ho Ho')|done|done|done|].
      + intros ->. apply Hn. by apply (sv_nil R v VNil).
      + intros l Hl. eapply (sv_not_dataset R h h' Ha (Some v) (Some v')); [done| |by subst]. intros l0 [= ->]. by apply Hnd.
      + eapply (alike_prints R h1 h1' Ha1 F ord ord' Ho Ho'); done.
    - intros h sc t s d b v w Hs Hv Hf Hn Hp Hw h' sc' Ha HF _.
      destruct (alike_found _ _ _ Ha _ _ _ Hf _ HF) as (r' & Hf' & Hr). inversion Hr as [? v' Hvv|]; subst.
      exists h'. split; [|done]. eapply ro_cond_unknown; [done..| |by eapply (alike_prints R h h' Ha F ord ord' Ho Ho')|done]. intros ->. apply Hn. by apply (sv_nil R v VNil).
    - intros h sc t s d b r p q h1 out Hs Hv Hf Hbl Hq _ IH h' sc' Ha HF Hb.
      destruct (alike_found _ _ _ Ha _ _ _ Hf _ HF) as (r' & Hf' & Hr). destruct (IH h' sc' Ha HF) as (h1' & ? & ?).
      { destruct Hb as [Hb|[Ht _]]; [by left|right]. intros x Hx. destruct q as [y|]; simplify_eq; by eapply HS. }
      exists h1'. split; [|done]. eapply ro_cond_blank; [done..| |done|done]. by eapply (alike_blank R h h' Ha F ord ord' Ho Ho').
    - intros h sc t b x i n h' sc' ds' Ha HF _ Hd. inversion Hd; subst. exists h'. split; [constructor|done].
    - intros h sc t b x i n d ds q h1 h2 h3 o1 o2 Hq (y & m & Hi & ->) _ IH1 _ IH2 h' sc' ds' Ha HF Hbij Hd.
      inversion Hd as [|? e ? ds2 Hde Hds]; subst. inversion Hde as [? d' HR|]; subst.
      destruct (alike_inside _ _ _ Ha _ _ _ Hi _ HR) as (y' & m' & Hi' & HRy & Hm).
      edestruct (IH1 (<[y' := ODs (<[B ".counter" := VInt KInt (Z.of_nat i + 1)%Z]> m')]> h') (d' :: sc')) as (h2' & ? & Ha2).
      { apply alike_store; [done..|]. intros k. destruct (decide (k = B ".counter")) as [->|Hne].
        - rewrite !lookup_insert. constructor. by left.
        - rewrite !lookup_insert_ne by done. apply Hm. }
      { by constructor. } { by left. }
      destruct (IH2 h2' sc' ds2 Ha2 HF Hbij Hds) as (h3' & ? & ?). exists h3'. split; [|done].
      eapply lp_next; [done| |done|done]. by exists y', m'.
  Qed.
End Execute.
