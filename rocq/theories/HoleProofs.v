(** * Rendering with free fields (C102): lookups and prints. *)
From Verif Require Import GoBase GoStrings GoStringsProofs DatasetModel LangModel DatasetSpec DatasetProofs DatasetProofs2 DatasetProofs3 DatasetProofs4
  TemplateModel TemplateSpec RenderSpec HoleSpec.
Local Open Scope Z_scope.

Section Variant.
  Context (kind : bytes -> role) (h h' : heap) (Hv : variant kind h h').
  Notation fit := (fits kind h).
  Lemma variant_ds l m : h !! l = Some (ODs m) -> exists m', h' !! l = Some (ODs m') /\ forall k, option_Forall2 (fit k) (m !! k) (m' !! k).
  Proof. intros E. pose proof (Hv l) as H. rewrite E in H. inversion H as [? m' Hm|o Ho]; subst; [eauto|by destruct (Ho m)]. Qed.
  Lemma variant_other l : (forall m, h !! l <> Some (ODs m)) -> h' !! l = h !! l.
  Proof. intros Hn. destruct (Hv l) as [m m' Hm|o Ho]; [by destruct (Hn m)|done]. Qed.
  Lemma variant_ts l w : h !! l = Some (OTs w) -> h' !! l = Some (OTs w).
  Proof. intros E. rewrite variant_other; [done|]. by rewrite E. Qed.
  Lemma variant_coll l xs : collection_at h l xs <-> collection_at h' l xs.
  Proof.
    split.
    - intros [E|E]; [left|right]; (rewrite variant_other; [done|by rewrite E]).
    - pose proof (Hv l) as H. intros [E|E]; rewrite E in H; inversion H; subst; [left|right]; done.
  Qed.
  Lemma variant_dataset l : dataset_at h l <-> dataset_at h' l.
  Proof.
    split.
    - intros [[m E]|[w E]]; [destruct (variant_ds l m E) as (m' & E' & _); left; eauto|right; exists w; by apply variant_ts].
    - pose proof (Hv l) as H. intros [[m E]|[w E]]; rewrite E in H; inversion H as [m0 ? ? E0|? ? E0]; subst; [left; eauto|left; eauto|right; eauto].
  Qed.
  Lemma fit_ref k l v' : fit k (VRef l) v' -> v' = VRef l.
  Proof. unfold fits. destruct (kind k); [intros [H _]; by destruct (H l)|naive_solver..]. Qed.
  Lemma fit_plain k v v' : fit k v v' -> plain h v -> plain h' v'.
  Proof.
    intros Hf [H1 H2]. assert (v' = v \/ forall l, v' <> VRef l) as [->|Hn] by (unfold fits in Hf; destruct (kind k); naive_solver).
    - split; [intros d -> K; by apply (H1 d eq_refl), variant_dataset|intros c xs -> K; by eapply (H2 c xs eq_refl), variant_coll].
    - split; intros; by destruct (Hn _ ltac:(done)).
  Qed.
  Lemma variant_inside d x m : inside h d x m -> exists m', inside h' d x m' /\ h' !! x = Some (ODs m') /\ forall k, option_Forall2 (fit k) (m !! k) (m' !! k).
  Proof.
    induction 1 as [l m E|l d t m E _ (m' & IH & IH')].
    - destruct (variant_ds l m E) as (m' & E' & Hm). exists m'. split; [by apply in_ds|done].
    - exists m'. split; [|done]. eapply in_ts; [by apply variant_ts|done].
  Qed.
End Variant.

(** ** Where an answer comes from *)
Inductive origin := Nothing | Cell (x : loc) (k : bytes) | Element (d : loc).
Definition cell (h : heap) (x : loc) (k : bytes) (v : value) : Prop := exists m, h !! x = Some (ODs m) /\ m !! k = Some v.
Inductive stems (h : heap) (path : bytes) : origin -> option value -> Prop :=
  | st_nothing : stems h path Nothing None
  | st_cell x k v : tail path k -> cell h x k v -> stems h path (Cell x k) (Some v)
  | st_element d k i : tail path k -> denotes k (Z.of_nat i) -> stems h path (Element d) (Some (VRef d)).
Definition joined (p : list bytes) : bytes := match p with [] => [] | s :: l => s ++ concat (map (cons ">"%char) l) end.
Lemma tail_joined s p k : p <> [] -> tail (joined p) k -> tail (joined (s :: p)) k.
Proof.
  destruct p as [|a p]; [done|]. intros _ [->|[q E]]; right.
  - exists s. simpl. done.
  - exists (s ++ ">"%char :: q). simpl in *. rewrite E. by rewrite <- app_assoc.
Qed.
Lemma stems_up h s p o r : p <> [] -> stems h (joined p) o r -> stems h (joined (s :: p)) o r.
Proof.
  intros Hp [|x k v Ht Hc|d k i Ht Hd]; [constructor|constructor; [by apply tail_joined|done]|econstructor; [by apply tail_joined|done]].
Qed.
Lemma cell_none (m : gmap bytes value) h x k path : h !! x = Some (ODs m) -> tail path k -> exists o, stems h path o (m !! k) /\ (o = Nothing \/ o = Cell x k).
Proof.
  intros E Ht. destruct (m !! k) as [v|] eqn:Ek; [|exists Nothing; split; [constructor|by left]]. exists (Cell x k). split; [|by right]. constructor; [done|]. by exists m.
Qed.
Section Reads.
  Context (kind : bytes -> role).
  (** The same place answers in every variant. *)
  Lemma cell_variant h h' m m' l k path : variant kind h h' -> h !! l = Some (ODs m) -> h' !! l = Some (ODs m') -> (forall k, option_Forall2 (fits kind h k) (m !! k) (m' !! k)) ->
    tail path k -> forall o, stems h path o (m !! k) -> o = Nothing \/ o = Cell l k -> stems h' path o (m' !! k).
  Proof.
    intros Hv E E' Hm Ht o Ho Hor. pose proof (Hm k) as Hk. destruct (m !! k) as [v|] eqn:Ek; inversion Hk as [? v' Hf|]; subst.
    - destruct Hor as [->| ->]; [inversion Ho|]. constructor; [done|]. exists m'. done.
    - destruct Hor as [->| ->]; [constructor|inversion Ho].
  Qed.
  Lemma path_origin h l p r : at_path h l p r -> exists o, stems h (joined p) o r /\
    forall h', variant kind h h' -> exists r', at_path h' l p r' /\ stems h' (joined p) o r'.
  Proof.
    induction 1 as [l d p r Hl _ (o & Ho & IH)|l m k Hl|l m k p Hl Hk Hp|l m k d p r Hl Hk Hd Hp _ (o & Ho & IH)|l m k c xs s p Hl Hk Hc Hi
      |l m k c xs s i d Hl Hk Hc Hs Hx|l m k c xs s i d p r Hl Hk Hc Hs Hx Hp _ (o & Ho & IH)|l m k p v Hl Hk Hv Hp].
    - exists o. split; [done|]. intros h' Hv. destruct (IH h' Hv) as (r' & H1 & H2). exists r'. split; [|done]. eapply ap_wrap; [by eapply variant_ts|done].
    - assert (Ht : tail (joined [k]) k) by (left; simpl; by rewrite app_nil_r).
      destruct (cell_none m h l k (joined [k]) Hl Ht) as (o & Ho & Hor). exists o. split; [done|]. intros h' Hv.
      destruct (variant_ds kind h h' Hv l m Hl) as (m' & Hl' & Hm). exists (m' !! k). split; [by apply ap_last|]. by eapply cell_variant.
    - exists Nothing. split; [constructor|]. intros h' Hv. destruct (variant_ds kind h h' Hv l m Hl) as (m' & Hl' & Hm). exists None. split; [|constructor].
      eapply ap_missing; [done| |done]. pose proof (Hm k) as E. rewrite Hk in E. by inversion E.
    - exists o. split; [by apply stems_up|]. intros h' Hv. destruct (variant_ds kind h h' Hv l m Hl) as (m' & Hl' & Hm). destruct (IH h' Hv) as (r' & H1 & H2).
      exists r'. split; [|by apply stems_up]. pose proof (Hm k) as E. rewrite Hk in E. inversion E as [? v' Hf Ev|]; subst.
      apply (fit_ref kind h) in Hf as ->. eapply ap_dataset; [done|by rewrite <- H|by apply (variant_dataset kind h h' Hv)|done|done].
    - exists Nothing. split; [constructor|]. intros h' Hv. destruct (variant_ds kind h h' Hv l m Hl) as (m' & Hl' & Hm). exists None. split; [|constructor].
      pose proof (Hm k) as E. rewrite Hk in E. inversion E as [? v' Hf Ev|]; subst. apply (fit_ref kind h) in Hf as ->.
      eapply ap_no_index; [done|by rewrite <- H|by apply (variant_coll kind h h' Hv)|done].
    - assert (Ht : tail (joined [k; s]) s) by (right; exists k; simpl; by rewrite app_nil_r).
      exists (Element d). split; [by econstructor|]. intros h' Hv. destruct (variant_ds kind h h' Hv l m Hl) as (m' & Hl' & Hm). exists (Some (VRef d)).
      split; [|by econstructor]. pose proof (Hm k) as E. rewrite Hk in E. inversion E as [? v' Hf Ev|]; subst. apply (fit_ref kind h) in Hf as ->.
      eapply ap_element; [done|by rewrite <- H|by apply (variant_coll kind h h' Hv)|done|done].
    - exists o. split; [apply stems_up; [done|by apply stems_up]|]. intros h' Hv. destruct (variant_ds kind h h' Hv l m Hl) as (m' & Hl' & Hm). destruct (IH h' Hv) as (r' & H1 & H2).
      exists r'. split; [|apply stems_up; [done|by apply stems_up]]. pose proof (Hm k) as E. rewrite Hk in E. inversion E as [? v' Hf Ev|]; subst. apply (fit_ref kind h) in Hf as ->.
      eapply ap_in_element; [done|by rewrite <- H|by apply (variant_coll kind h h' Hv)|done|done|done|done].
    - set (kk := k ++ concat (map (cons ">"%char) p)). assert (Ht : tail (joined (k :: p)) kk) by (by left).
      destruct (cell_none m h l kk (joined (k :: p)) Hl Ht) as (o & Ho & Hor). exists o. split; [done|]. intros h' Hvr.
      destruct (variant_ds kind h h' Hvr l m Hl) as (m' & Hl' & Hm). exists (m' !! kk). split; [|by eapply cell_variant].
      pose proof (Hm k) as E. rewrite Hk in E. inversion E as [? v' Hf Ev|]; subst. eapply ap_literal; [done|by rewrite <- H|by eapply (fit_plain kind h h' Hvr)|done].
  Qed.
  Lemma answer_origin h d key r : answers h d key r -> exists o, stems h key o r /\
    forall h', variant kind h h' -> exists r', answers h' d key r' /\ stems h' key o r'.
  Proof.
    intros (s & segs & Hs & Hp). destruct (path_origin _ _ _ _ Hp) as (o & Ho & H).
    assert (Ej : joined (s :: segs) = key) by (destruct Hs as [_ ->]; done). rewrite Ej in *.
    exists o. split; [done|]. intros h' Hv. destruct (H h' Hv) as (r' & H1 & H2). exists r'. split; [by exists s, segs|done].
  Qed.
  Lemma found_origin h sc key r : found h sc key r -> exists o, stems h key o r /\
    forall h', variant kind h h' -> exists r', found h' sc key r' /\ stems h' key o r'.
  Proof.
    induction 1 as [key|d sc key v Hv|d sc key r Hn _ (o & Ho & IH)].
    - exists Nothing. split; [constructor|]. intros h' _. exists None. split; constructor.
    - destruct (answer_origin _ _ _ _ Hv) as (o & Ho & H). exists o. split; [done|]. intros h' Hvr. destruct (H h' Hvr) as (r' & H1 & H2).
      exists r'. split; [|done]. inversion Ho; subst; inversion H2; subst; by apply fd_here.
    - destruct (answer_origin _ _ _ _ Hn) as (o1 & Ho1 & H). inversion Ho1; subst. exists o. split; [done|]. intros h' Hvr.
      destruct (H h' Hvr) as (r1 & H1 & H2). inversion H2; subst. destruct (IH h' Hvr) as (r' & H3 & H4). exists r'. split; [by apply fd_outer|done].
  Qed.
  Lemma cell_fits h h' x k v v' : variant kind h h' -> cell h x k v -> cell h' x k v' -> fits kind h k v v'.
  Proof.
    intros Hv (m & E & Ek) (m' & E' & Ek'). destruct (variant_ds kind h h' Hv x m E) as (m2 & E2 & Hm). rewrite E' in E2. injection E2 as <-.
    pose proof (Hm k) as H. rewrite Ek, Ek' in H. by inversion H.
  Qed.
  (** Values that are not free are the same. *)
  Lemma found_kept h sc key r : found h sc key r -> (forall k, tail key k -> kind k <> Free) -> forall h', variant kind h h' -> found h' sc key r.
  Proof.
    intros Hf Hk h' Hv. destruct (found_origin _ _ _ _ Hf) as (o & Ho & H). destruct (H h' Hv) as (r' & H1 & H2).
    inversion Ho as [|x k v Ht Hc|d k i Ht Hd]; subst; inversion H2 as [|? ? v' ? Hc'|]; subst; [done| |done].
    pose proof (cell_fits _ _ _ _ _ _ Hv Hc Hc') as Hfit. specialize (Hk k Ht). unfold fits in Hfit. destruct (kind k); [done|naive_solver..].
  Qed.
  Lemma found_ref h sc key l : found h sc key (Some (VRef l)) -> forall h', variant kind h h' -> found h' sc key (Some (VRef l)).
  Proof.
    intros Hf h' Hv. destruct (found_origin _ _ _ _ Hf) as (o & Ho & H). destruct (H h' Hv) as (r' & H1 & H2).
    inversion Ho as [|x k v Ht Hc|d k i Ht Hd]; subst; inversion H2 as [|? ? v' ? Hc'|]; subst; [|done].
    pose proof (cell_fits _ _ _ _ _ _ Hv Hc Hc') as Hfit. apply fit_ref in Hfit as ->. done.
  Qed.
  Lemma found_any h sc key r : found h sc key r -> forall h', variant kind h h' -> exists r', found h' sc key r' /\ forall l, r' = Some (VRef l) -> r = Some (VRef l).
  Proof.
    intros Hf h' Hv. destruct (found_origin _ _ _ _ Hf) as (o & Ho & H). destruct (H h' Hv) as (r' & H1 & H2). exists r'. split; [done|]. intros l ->.
    inversion Ho as [|x k v Ht Hc|d k i Ht Hd]; subst; inversion H2 as [|? ? v' ? Hc'|]; subst; [|done].
    pose proof (cell_fits _ _ _ _ _ _ Hv Hc Hc') as Hfit. unfold fits in Hfit. destruct (kind k); [destruct Hfit as [_ K]; by destruct (K l)|naive_solver..].
  Qed.

  (** ** Prints *)
  Context (F : golib) (ord : heap -> gmap bytes value -> list (bytes * value)) (Hord : order_ok ord).
  Lemma plain_prints h v : (forall l, v <> VRef l) -> forall s, prints F ord h v s <-> s = plain_text F v.
  Proof.
    intros Hn s. split; [intros [n H]|intros ->; exists 0%nat]; unfold sprint in *; destruct v; simpl in *; try congruence; by destruct (Hn l).
  Qed.
  Lemma elements_fuel (f f' : value -> outcome bytes) xs : (forall v, f v <> NoFuel -> f' v <> NoFuel) -> (forall v, f v <> Panic) -> (forall v, f' v <> Panic) ->
    forall i, show_elements f i xs <> NoFuel -> exists t, show_elements f' i xs = Ok t.
  Proof.
    intros Hf Hp Hp'. induction xs as [|x xs IH]; intros i H; simpl in *; [eauto|].
    set (v := match x with Some l => VRef l | None => VNil end) in *. destruct (f v) as [t| |] eqn:E; [|by destruct (Hp v)|done]. cbn [obind] in H.
    destruct (IH (i + 1)) as [ts E2]; [intros K; by rewrite K in H|]. destruct (f' v) as [t'| |] eqn:E'; [|by destruct (Hp' v)|by destruct (Hf v); [congruence|]].
    cbn [obind]. rewrite E2. cbn [obind]. eauto.
  Qed.
  Lemma entries_fuel (f : value -> outcome bytes) l : (forall v, f v <> Panic) -> (forall e, e ∈ l -> f e.2 <> NoFuel) -> exists t, show_entries f l = Ok t.
  Proof.
    intros Hp. induction l as [|[k v] l IH]; intros H; simpl; [eauto|]. destruct (f v) as [t| |] eqn:E; [|by destruct (Hp v)|by destruct (H (k, v)); [left|]].
    cbn [obind]. destruct IH as [ts ->]; [intros e He; apply H; by right|]. cbn [obind]. eauto.
  Qed.
  Lemma entries_ok (f : value -> outcome bytes) l t : show_entries f l = Ok t -> forall e, e ∈ l -> f e.2 <> NoFuel.
  Proof.
    revert t. induction l as [|[k v] l IH]; intros t H e He; [by apply elem_of_nil in He|]. simpl in H. destruct (f v) as [t1| |] eqn:E; try done. cbn [obind] in H.
    destruct (show_entries f l) as [ts| |]; try done. apply elem_of_cons in He as [->|He]; [simpl; congruence|by eapply IH].
  Qed.
  Lemma variant_fuel h h' : variant kind h h' -> forall n go l, show F ord n h go l <> NoFuel -> show F ord n h' go l <> NoFuel.
  Proof.
    intros Hv. induction n as [|n IH]; intros go l H; [done|]. cbn [show] in *.
    assert (Hval : forall go v, show_value F (show F ord n h) go v <> NoFuel -> show_value F (show F ord n h') go v <> NoFuel).
    { intros g v K. destruct v; try done. simpl in *. specialize (IH g l0). destruct (show F ord n h g l0); destruct (show F ord n h' g l0); try done; by apply IH. }
    destruct (h !! l) as [[m|w|xs|xs]|] eqn:E.
    - destruct (variant_ds kind h h' Hv l m E) as (m' & -> & Hm).
      destruct (show_entries (show_value F (show F ord n h) go) (ord h m)) as [t| |] eqn:Es; [|by pose proof (show_entries_perm (show_value F (show F ord n h) go) _ _ (reflexivity (ord h m)) (show_value_no_panic F _ _)) as K; rewrite Es in K|done].
      destruct (entries_fuel (show_value F (show F ord n h') go) (ord h' m')) as [t' ->]; [intros v; apply show_value_no_panic| |done].
      intros [k v'] Hin. simpl. rewrite (Hord h' m') in Hin. apply elem_of_map_to_list in Hin. pose proof (Hm k) as Hk. rewrite Hin in Hk.
      inversion Hk as [v ? Hf Ev|]; subst. assert (show_value F (show F ord n h) go v <> NoFuel) as Kv.
      { apply (entries_ok _ _ _ Es (k, v)). rewrite (Hord h m). by apply elem_of_map_to_list. }
      assert (v' = v \/ forall l, v' <> VRef l) as [->|Hn] by (unfold fits in Hf; destruct (kind k); naive_solver); [by apply Hval|].
      destruct v'; try done. by destruct (Hn l0).
    - rewrite (variant_ts kind h h' Hv l w E). destruct w; [by apply IH|done].
    - rewrite (variant_other kind h h' Hv l), E by (by rewrite E). destruct (elements_fuel (show_value F (show F ord n h) false) (show_value F (show F ord n h') false) xs) with (i := 0) as [t ->]; try done.
      + intros v. apply Hval. + intros v. apply show_value_no_panic. + intros v. apply show_value_no_panic.
      + intros K. by rewrite K in H.
    - rewrite (variant_other kind h h' Hv l), E by (by rewrite E). destruct (elements_fuel (show_value F (show F ord n h) false) (show_value F (show F ord n h') false) xs) with (i := 0) as [t ->]; try done.
      + intros v. apply Hval. + intros v. apply show_value_no_panic. + intros v. apply show_value_no_panic.
      + intros K. by rewrite K in H.
    - by rewrite (variant_other kind h h' Hv l), E by (by rewrite E).
  Qed.
  Lemma show_text n h go l s : show F ord n h go l = Ok s -> s <> [].
  Proof.
    revert l s. induction n as [|n IH]; intros l s H; [done|]. cbn [show] in H. destruct (h !! l) as [[m|[d|]|xs|xs]|]; try done.
    - destruct (show_entries _ _); try done. simplify_eq/=. by destruct go.
    - by eapply IH.
    - destruct (show_elements _ _ _); try done. by simplify_eq/=.
    - destruct (show_elements _ _ _); try done. by simplify_eq/=.
  Qed.
  (** A reference prints something in every variant. *)
  Lemma ref_prints h h' l s : variant kind h h' -> prints F ord h (VRef l) s -> s <> [] /\ exists s', prints F ord h' (VRef l) s' /\ s' <> [].
  Proof.
    intros Hv [n H]. unfold sprint in H. cbn [show_value] in H. pose proof (variant_fuel h h' Hv n false l) as Hf.
    assert (Hne : s <> []).
    { destruct (show F ord n h false l) as [t| |] eqn:E; simplify_eq/=; [by eapply show_text|done]. }
    split; [done|]. unfold prints, sprint. cbn [show_value]. destruct (show F ord n h' false l) as [t| |] eqn:E'.
    - exists t. split; [exists n; by rewrite E'|by eapply show_text].
    - exists (panic_text false). split; [exists n; by rewrite E'|done].
    - exfalso. apply Hf; [|done]. intros K. by rewrite K in H.
  Qed.
End Reads.
